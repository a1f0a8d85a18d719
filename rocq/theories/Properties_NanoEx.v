(** Generated by tools/gen_properties.py from PNanoEx.v: the property theorems,
    verbatim, each closed by [exact]. Contains nothing else. *)
From Verif Require Import Vec Spec MMotion MLaue MMesh MScattering MStrain MBeam MPolycrystal SPolycrystal MDetector SDetector.
From Verif Require Import MRender SRender SNano PLaue PScattering PBeam PDetector PDetector2 PDetector3 PDetector4 PRender PRender2 PRender2b PRenderEx PRender3 PKernel PKernel2 PKernel3 PMacro PNano.
From Coq Require Import Permutation FunctionalExtensionality.
From Verif Require Import PNanoEx.
Open Scope R_scope.

(** A machine without free memory and one with 1 GB render different images of the same
    table: the second peak is normalised over 17 x 17 pixels on the first, over 25 x 25
    pixels on the second.  This holds for every function j1 that does not vanish at one
    point of the outer rings, and every correct sorting routine. *)
Theorem C42_memory_changes_image_refuted : forall j1 argsort, j1 (38317/10000 * 9 / 2) <> 0 -> permutes argsort -> descending argsort ->
  exists d pd e im im' out f i j, built d /\ fresh pd /\ volumes_ok pd /\ re_j1 e = j1 /\ re_argsort e = argsort /\
    render (with_memory 0 e) d pd 2 "nano" None 1 = Ok (im, out) /\
    render (with_memory 1 e) d pd 2 "nano" None 1 = Ok (im', out) /\
    in_image im f i j /\ in_image im' f i j /\ f_at im f i j <> f_at im' f i j.
Proof. exact pC42_memory_changes_image_refuted. Qed.
Print Assumptions C42_memory_changes_image_refuted.

(** The hypotheses of the refutation can be met, and two machines render a table with
    discs of the same size (2 pixels, one per frame). *)
Example C42_sorting_exists_nonvacuous : exists j1 argsort, j1 (38317/10000 * 9 / 2) <> 0 /\ permutes argsort /\ descending argsort.
Proof. exact xC42_sorting_exists. Qed.

Example C42_equal_sizes_nonvacuous : exists e d pd im out, built d /\ fresh pd /\ volumes_ok pd /\ 0 < d_pz d /\ permutes (re_argsort e) /\
  render e d pd 2 "nano" None 1 = Ok (im, out) /\ List.length (pd_peaks out) = 2%nat /\
  (forall r, In r (pd_peaks out) -> proper_disc out r /\ disc_radius d out r = 2).
Proof. exact xC42_equal_sizes. Qed.

