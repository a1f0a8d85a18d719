(** Generated by tools/gen_properties.py from PCorner3.v: the property theorems,
    verbatim, each closed by [exact]. Contains nothing else. *)
From Verif Require Import Vec Spec MMotion MLaue MMesh MScattering MStrain MBeam SBeam MPolycrystal SPolycrystal MDetector MClip MRender SRender SWindow.
From Verif Require Import PMotion PLaue PMesh PBeam PStrain PPolycrystal PPolycrystal2 PDetector PDetector2 PDetector3 PDetector4 PRender PRender2 PRender3 PKernel3 PEvents PEnd2 PJoin2 PStructure2 PFrame PFrame2 PFrame3 PFrame4 PLinear PWindow PWindow2 PWindow3 PCorner PCorner2.
From Verif Require Import SCorner SDetector.
From Coq Require Import Permutation.
From Verif Require Import PCorner3.
Open Scope list_scope. Open Scope R_scope.

(** C105. The 'macro' picture on the transposed detector is the transposed picture, exactly: pixel by pixel, blur included, for the
    same hulls and sample points. *)
Theorem C105_transposed_macro : forall d d2 e z x p b m lo hi det pd frames ml mi im out, transposed d d2 ->
  fst (diffract z x p b m lo hi det) = Ok pd -> render e d pd frames "macro" ml mi = Ok (im, out) ->
  exists im2 out2, render e d2 pd frames "macro" ml mi = Ok (im2, out2) /\ transposed_image im im2.
Proof. exact pC105_transposed_macro. Qed.
Print Assumptions C105_transposed_macro.

(** C105. And it fails when the other one fails, with the same exception. *)
Theorem C105_macro_same_failures : forall d d2 e z x p b m lo hi det pd frames ml mi ex, transposed d d2 ->
  fst (diffract z x p b m lo hi det) = Ok pd -> render e d pd frames "macro" ml mi = Err ex -> render e d2 pd frames "macro" ml mi = Err ex.
Proof. exact pC105_macro_same_failures. Qed.
Print Assumptions C105_macro_same_failures.

