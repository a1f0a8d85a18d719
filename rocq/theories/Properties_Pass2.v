(** Generated by tools/gen_properties.py from PPass2.v: the property theorems,
    verbatim, each closed by [exact]. Contains nothing else. *)
From Verif Require Import Vec MMotion MLaue MMesh MScattering MStrain MBeam MPolycrystal SPolycrystal MDetector SDetector MRender SRender SPassenger.
From Verif Require Import PMesh PPolycrystal PDetector PDetector2 PRender PJoin2 PPass.
From Coq Require Import String.
From Verif Require Import PPass2.
Open Scope list_scope. Open Scope R_scope.

(** Tables that agree in the picture columns, over the same sample surface, motion and lit region,
    give the same picture or the same failure, with every method; the recorded tables agree too. *)
Theorem C97_picture_columns : forall e d pd pd' frames method ml mi,
  fresh pd -> fresh pd' -> same_scene pd pd' -> agree_on (picture_column d) pd pd' ->
  match render e d pd frames method ml mi, render e d pd' frames method ml mi with
  | Ok (im, out), Ok (im', out') => im = im' /\ agree_on (fun s => picture_column d s \/ added_column s) out out'
  | Err x, Err x' => x = x'
  | _, _ => False
  end.
Proof. exact pC97_picture_columns. Qed.
Print Assumptions C97_picture_columns.

