(** Generated by tools/gen_properties.py from PNano3.v: the property theorems,
    verbatim, each closed by [exact]. Contains nothing else. *)
From Verif Require Import Vec Spec MMotion MLaue MMesh MScattering MStrain MBeam MPolycrystal SPolycrystal MDetector SDetector.
From Verif Require Import MRender SRender SNano PLaue PScattering PBeam PDetector PDetector2 PDetector3 PDetector4 PRender PRender2 PRender2b PRenderEx PRender3 PKernel PKernel2 PKernel3 PMacro PNano PNanoEx PNano2.
From Coq Require Import Permutation FunctionalExtensionality.
From Verif Require Import PNano3.
Open Scope R_scope.

(** The frame of a 'nano' image whose peaks lie far from the border holds their scattering
    strength up to the relative threshold at which the kernels are cropped. *)
Theorem C74_interior_total : forall e d pd frames ml mi im out f T, fresh pd -> volumes_ok pd -> 0 < d_pz d -> d_sigma d <> 0 -> (0 <= d_max_radius d)%Z ->
  0 <= d_threshold d -> permutes (re_argsort e) -> render e d pd frames "nano" ml mi = Ok (im, out) ->
  (forall r, In r (pd_peaks out) -> proper_disc out r) -> (f < f_n im)%nat -> (forall r, In r (rows_in_frame out f) -> deep d out r) ->
  frame_total im f = Fin T ->
  (1 - d_threshold d) * sum_list (map (strength out) (rows_in_frame out f)) <= T <= sum_list (map (strength out) (rows_in_frame out f)).
Proof. exact pC74_interior_total. Qed.
Print Assumptions C74_interior_total.

(** When no disc is larger than 2 pixels every frame of a 'nano' image has a finite total. *)
Theorem C74_small_discs_finite : forall e d pd frames ml mi im out f, fresh pd -> volumes_ok pd -> built d -> 0 < d_pz d -> d_sigma d <> 0 -> (0 <= d_max_radius d)%Z ->
  permutes (re_argsort e) -> render e d pd frames "nano" ml mi = Ok (im, out) ->
  (forall r, In r (pd_peaks out) -> proper_disc out r /\ disc_radius d out r <= 2) -> (f < f_n im)%nat ->
  exists T, frame_total im f = Fin T.
Proof. exact pC74_small_discs_finite. Qed.
Print Assumptions C74_small_discs_finite.

(** A table with a disc of 2 pixels in the middle of a 401 x 401 detector meets the conditions. *)
Example C74_disc_nonvacuous : exists e d pd im out r, built d /\ fresh pd /\ volumes_ok pd /\ 0 < d_pz d /\ d_sigma d <> 0 /\ (0 <= d_max_radius d)%Z /\ 0 <= d_threshold d <= 1/10 /\
  permutes (re_argsort e) /\ render e d pd 1 "nano" None 1 = Ok (im, out) /\ f_n im = 1%nat /\ rows_in_frame out 0 = [r] /\ strength out r = 6 /\
  (forall r, In r (pd_peaks out) -> proper_disc out r /\ disc_radius d out r = 2 /\ deep d out r).
Proof. exact xC74_disc. Qed.

