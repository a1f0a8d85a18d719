(** Generated by tools/gen_properties.py from PLinear3.v: the property theorems,
    verbatim, each closed by [exact]. Contains nothing else. *)
From Verif Require Import Vec Spec MMotion MLaue MMesh MScattering MStrain MBeam MPolycrystal SPolycrystal MDetector SDetector.
From Verif Require Import MRender SRender SNano SPassenger SLinear PLaue PScattering PBeam PDetector PDetector2 PRender PRender2 PRender2b PRenderEx PRender3 PNano PNanoEx PNano6 PJoin2 PLinear PLinear2.
From Coq Require Import String.
From Verif Require Import PLinear3.
Open Scope list_scope. Open Scope R_scope.

(** Multiplying the structure factors of a table, as a case of [rescaled]. *)
Example C103_table_nonvacuous : forall c pd, fresh pd -> let pd' := scale_structure_factors c pd in
  fresh pd' /\ same_scene pd pd' /\ rescaled ["structure_factors"%string] c pd pd'.
Proof. exact xC103_table. Qed.

(** Two discs, their structure factors doubled. *)
Example C103_doubled_nonvacuous : exists e d pd pd' im out im' out', fresh pd /\ fresh pd' /\ same_scene pd pd' /\ volumes_ok pd /\
  brightness_factor d "structure_factors" /\ rescaled ["structure_factors"%string] 2 pd pd' /\
  render e d pd 2 "nano" None 1 = Ok (im, out) /\ render e d pd' 2 "nano" None 1 = Ok (im', out') /\ brighter 2 im im' /\
  List.length (pd_peaks out) = 2%nat /\ exists im2 im2' o o', render e d pd 2 "micro" None 1 = Ok (im2, o) /\ render e d pd' 2 "micro" None 1 = Ok (im2', o').
Proof. exact xC103_doubled. Qed.

