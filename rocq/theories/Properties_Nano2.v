(** Generated by tools/gen_properties.py from PNano2.v: the property theorems,
    verbatim, each closed by [exact]. Contains nothing else. *)
From Verif Require Import Vec Spec MMotion MLaue MMesh MScattering MStrain MBeam MPolycrystal SPolycrystal MDetector SDetector.
From Verif Require Import MRender SRender SNano PLaue PScattering PBeam PDetector PDetector2 PDetector3 PDetector4 PRender PRender2 PRender2b PRenderEx PRender3 PKernel PKernel2 PKernel3 PMacro PNano PNanoEx.
From Coq Require Import Permutation FunctionalExtensionality.
From Verif Require Import PNano2.
Open Scope R_scope.

(** An image rendered with method 'nano' contains at most the scattering strength of the
    peaks of each frame, whenever the sum of the frame is a number. *)
Theorem C74_total_bounded : forall e d pd frames ml mi im out f T, fresh pd -> volumes_ok pd -> 0 < d_pz d -> d_sigma d <> 0 -> (0 <= d_max_radius d)%Z ->
  permutes (re_argsort e) -> render e d pd frames "nano" ml mi = Ok (im, out) ->
  (forall r, In r (pd_peaks out) -> proper_disc out r) -> (f < f_n im)%nat -> frame_total im f = Fin T ->
  0 <= T <= sum_list (map (strength out) (rows_in_frame out f)).
Proof. exact pC74_total_bounded. Qed.
Print Assumptions C74_total_bounded.

