(** Generated by tools/gen_properties.py from PKernel2.v: the property theorems,
    verbatim, each closed by [exact]. Contains nothing else. *)
From Verif Require Import Vec Spec MMotion MLaue MMesh MScattering MStrain MBeam MPolycrystal SPolycrystal MDetector SDetector.
From Verif Require Import MRender SRender PLaue PScattering PBeam PDetector PDetector2 PDetector3 PDetector4 PRender PRender2 PRenderEx PRender3 PKernel.
From Coq Require Import Permutation.
From Verif Require Import PKernel2.
Open Scope R_scope.

(** For every kernel with non-negative entries the search ends at the least radius
    between 1 and half the kernel size whose enclosed energy reaches 1 - threshold,
    and at half the size when there is none. *)
Theorem C43_least_radius : forall thr k g, entries k g -> (forall a b, (a < k_n k)%nat -> (b < k_n k)%nat -> 0 <= g a b) -> (2 <= k_n k)%nat ->
  let r := crop_radius thr k in
  (1 <= r <= k_n k / 2)%nat /\
  (forall c, (1 <= c < r)%nat -> enclosed (k_n k) g c < 1 - thr) /\
  (r = (k_n k / 2)%nat \/ 1 - thr <= enclosed (k_n k) g r).
Proof. exact pC43_least_radius. Qed.
Print Assumptions C43_least_radius.

(** The cropped kernel is the window of that radius: its entries add up to the
    enclosed energy. *)
Theorem C43_cropped_energy : forall thr k g, entries k g -> (2 <= k_n k)%nat ->
  (forall a b, (a < k_n k)%nat -> (b < k_n k)%nat -> 0 <= g a b) ->
  let c := crop_radius thr k in
  ksum (crop k c) = Fin (enclosed (k_n k) g c) /\
  (Nat.odd (k_n k) = true -> k_n (crop k c) = (2 * c + 1)%nat /\
     forall a b, k_at (crop k c) a b = k_at k (k_n k / 2 - c + a) (k_n k / 2 - c + b)).
Proof. exact pC43_cropped_energy. Qed.
Print Assumptions C43_cropped_energy.

(** The kernel sampled from a uniform 5 x 5 plate, threshold 1/2: radius 2. *)
Example C43_plate_nonvacuous : exists k g, entries k g /\ (2 <= k_n k)%nat /\ (forall a b, 0 <= g a b) /\
  entry_total (k_n k) g = 1 /\ enclosed (k_n k) g 1 = 9/25 /\ crop_radius (1/2) k = 2%nat.
Proof. exact xC43_plate. Qed.

(** The entry a rows and b columns away from the centre entry, on which the kernel is
    placed, is the profile at distance |(a + delta, b + delta)| from the peak, where
    delta = ceil(radius) - radius: the pattern is centred only for integer radii. *)
Theorem C44_sampling_offset : forall z j1 d radius fz i j, 0 <= radius ->
  let k := airy_grid z j1 d radius fz in
  let a := IZR (Z.of_nat i - Z.of_nat (k_n k / 2)) in
  let b := IZR (Z.of_nat j - Z.of_nat (k_n k / 2)) in
  let delta := IZR (ceil radius) - radius in
  0 <= delta < 1 /\
  k_at k i j = airy_profile z j1 fz (d_sigma d) (sqrt ((a + delta)^2 + (b + delta)^2)).
Proof. exact pC44_sampling_offset. Qed.
Print Assumptions C44_sampling_offset.

(** For an integer radius the kernel is symmetric about its centre entry. *)
Theorem C44_integer_radius_symmetric : forall z j1 d n fz i j, (0 <= n)%Z ->
  let k := airy_grid z j1 d (IZR n) fz in
  k_n k = Z.to_nat (2 * n + 1) /\
  ((i < k_n k)%nat -> (j < k_n k)%nat ->
    k_at k i j = k_at k (k_n k - 1 - i) (k_n k - 1 - j) /\ k_at k i j = k_at k j i /\ k_at k i j = k_at k (k_n k - 1 - i) j).
Proof. exact pC44_integer_radius_symmetric. Qed.
Print Assumptions C44_integer_radius_symmetric.

(** A 5-pixel-wide example: with the first zero at 2.1 pixels the radius is 8.4, and
    the entry placed on the peak position is the profile 0.6 pixels away along both
    axes, whatever the Bessel function. *)
Theorem C44_centred_refuted : exists d fz radius, built d /\ airy_radius d (Fin fz) = Ok radius /\
  forall z j1, let k := airy_grid z j1 d radius (Fin fz) in
    k_at k (k_n k / 2) (k_n k / 2) = airy_profile z j1 (Fin fz) (d_sigma d) (sqrt (2 * (6/10)^2)).
Proof. exact pC44_centred_refuted. Qed.
Print Assumptions C44_centred_refuted.

(** Inside the image a value v deposited at the continuous position (zc, yc) is split
    over at most four pixels less than one pixel away; the parts have non-negative
    weights, add up to v, and their centre of mass is exactly (zc, yc). *)
Theorem C45_bilinear_conserves : forall h w f zc yc v, 0 <= zc -> zc < INR h - 1 -> 0 <= yc -> yc < INR w - 1 ->
  let ds := bilinear h w f zc yc (Fin v) in
  nsum (map dep_val ds) = Fin v /\
  nsum (map (fun dp => nmul (Fin (IZR (dep_row dp))) (dep_val dp)) ds) = Fin (zc * v) /\
  nsum (map (fun dp => nmul (Fin (IZR (dep_col dp))) (dep_val dp)) ds) = Fin (yc * v) /\
  Forall (fun dp => dep_frame dp = f /\ Rabs (IZR (dep_row dp) - zc) <= 1 /\ Rabs (IZR (dep_col dp) - yc) <= 1 /\
    exists q, dep_val dp = Fin (v * q) /\ 0 <= q <= 1) ds.
Proof. exact pC45_bilinear_conserves. Qed.
Print Assumptions C45_bilinear_conserves.

(** Anywhere, border included, nothing is gained: the parts that are kept add up to
    between 0 and v. *)
Theorem C45_border_loses_only : forall h w f zc yc v, 0 <= v ->
  exists t, nsum (map dep_val (bilinear h w f zc yc (Fin v))) = Fin t /\ 0 <= t <= v.
Proof. exact pC45_border_loses_only. Qed.
Print Assumptions C45_border_loses_only.

(** One kernel placed well inside the image: the deposits add up to the kernel's sum. *)
Theorem C45_kernel_total : forall h w f zc yc k g, entries k g ->
  INR (k_n k / 2) <= zc -> zc + INR (k_n k) - INR (k_n k / 2) < INR h -> INR (k_n k / 2) <= yc -> yc + INR (k_n k) - INR (k_n k / 2) < INR w ->
  nsum (map dep_val (kernel_deposits h w f zc yc k)) = Fin (entry_total (k_n k) g).
Proof. exact pC45_kernel_total. Qed.
Print Assumptions C45_kernel_total.

Example C45_inside_nonvacuous : 0 <= 3/2 /\ 3/2 < INR 4 - 1 /\
  exists k g, entries k g /\ entry_total (k_n k) g = 1 /\ INR (k_n k / 2) <= 5/2 /\ 5/2 + INR (k_n k) - INR (k_n k / 2) < INR 9.
Proof. exact xC45_inside. Qed.

