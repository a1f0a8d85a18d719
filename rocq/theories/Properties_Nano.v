(** Generated by tools/gen_properties.py from PNano.v: the property theorems,
    verbatim, each closed by [exact]. Contains nothing else. *)
From Verif Require Import Vec Spec MMotion MLaue MMesh MScattering MStrain MBeam MPolycrystal SPolycrystal MDetector SDetector.
From Verif Require Import MRender SRender SNano PLaue PScattering PBeam PDetector PDetector2 PDetector3 PDetector4 PRender PRender2 PRenderEx PRender3 PKernel PKernel2 PKernel3 PMacro.
From Coq Require Import Permutation FunctionalExtensionality.
From Verif Require Import PNano.
Open Scope R_scope.

(** The amount of free memory and the order of the peaks do not influence the image when
    every disc is at most 2 pixels in radius, or when all discs have the same radius:
    two machines that differ in free memory and sorting give the same image. *)
Theorem C42_equal_sizes_memory_irrelevant : forall e e' d pd frames ml mi im out, fresh pd -> volumes_ok pd -> built d -> 0 < d_pz d ->
  re_z e' = re_z e -> re_j1 e' = re_j1 e -> permutes (re_argsort e) -> permutes (re_argsort e') ->
  render e d pd frames "nano" ml mi = Ok (im, out) ->
  (forall r, In r (pd_peaks out) -> proper_disc out r) ->
  ((forall r, In r (pd_peaks out) -> disc_radius d out r <= 2) \/
   (forall r r', In r (pd_peaks out) -> In r' (pd_peaks out) -> disc_radius d out r = disc_radius d out r')) ->
  render e' d pd frames "nano" ml mi = Ok (im, out).
Proof. exact pC42_equal_sizes_memory_irrelevant. Qed.
Print Assumptions C42_equal_sizes_memory_irrelevant.

