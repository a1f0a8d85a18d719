(** Generated by tools/gen_properties.py from PNano5.v: the property theorems,
    verbatim, each closed by [exact]. Contains nothing else. *)
From Verif Require Import Vec Spec MMotion MLaue MMesh MScattering MStrain MBeam MPolycrystal SPolycrystal MDetector SDetector.
From Verif Require Import MRender SRender SNano PLaue PScattering PBeam PDetector PDetector2 PDetector3 PDetector4 PRender PRender2 PRender2b PRenderEx PRender3 PKernel PKernel2 PKernel3 PMacro PNano PNanoEx PNano2 PNano3 PNano4.
From Coq Require Import Permutation FunctionalExtensionality.
From Verif Require Import PNano5.
Open Scope R_scope.

(** Peaks of different size rendered together: all kernels get the same odd size, the kernel of each peak is
    its own Airy pattern around the middle, cut off to zero outside of a square. *)
Theorem C72_airy_batch : forall z j1 d psf pd rows X, 0 < d_pz d -> pd_columns pd = column_names ++ new_columns ->
  (forall r, In r rows -> List.length r = 30%nat /\ proper_disc pd r /\ 1/2 <= disc_radius d pd r < 10^8 /\ d_sigma d <= disc_radius d pd r <= X) ->
  (exists r, In r rows /\ disc_radius d pd r = X) -> (X <= 2 \/ (exists n, 4 * X = IZR n) \/ 32 <= X) ->
  exists ks m, airy_kernels z j1 d psf rows = Ok ks /\
    Forall2 (fun r k => k_n k = (2 * m + 1)%nat /\ exists c w, 0 < c /\ (1 <= w <= m)%nat /\
      forall a b, (a < 2 * m + 1)%nat -> (b < 2 * m + 1)%nat ->
        ((m - w <= a <= m + w)%nat /\ (m - w <= b <= m + w)%nat ->
          k_at k a b = Fin (c * airy_pattern j1 (sqrt ((INR a - INR m)^2 + (INR b - INR m)^2) / disc_radius d pd r))) /\
        (~ ((m - w <= a <= m + w)%nat /\ (m - w <= b <= m + w)%nat) -> k_at k a b = Fin 0)) rows ks.
Proof. exact pC72_airy_batch. Qed.
Print Assumptions C72_airy_batch.

Example C72_batch_nonvacuous : exists d pd ra rb, 0 < d_pz d /\ pd_columns pd = column_names ++ new_columns /\
  (forall r, In r [ra; rb] -> List.length r = 30%nat /\ proper_disc pd r /\ 1/2 <= disc_radius d pd r < 10^8 /\ d_sigma d <= disc_radius d pd r <= 3) /\
  disc_radius d pd ra = 2 /\ disc_radius d pd rb = 3 /\ exists n, 4 * 3 = IZR n.
Proof. exact xC72_batch. Qed.

