(** Generated by tools/gen_properties.py from PCorner.v: the property theorems,
    verbatim, each closed by [exact]. Contains nothing else. *)
From Verif Require Import Vec Spec MMotion MLaue MMesh MScattering MStrain MBeam SBeam MPolycrystal SPolycrystal MDetector MClip MRender SRender SWindow.
From Verif Require Import PMotion PLaue PMesh PBeam PStrain PPolycrystal PPolycrystal2 PDetector PDetector2 PDetector3 PDetector4 PRender PRender2 PRender3 PEvents PEnd2 PJoin2 PFrame PFrame2 PFrame3 PFrame4 PWindow PWindow2 PWindow3.
From Verif Require Import SCorner SDetector.
From Verif Require Import PCorner.
Open Scope list_scope. Open Scope R_scope.

(** C105. Exchanging corner 1 and corner 2 (and the pixel sizes): the same reflections are recorded, in the same order, with zd and yd
    exchanged and the supplement of the incident angle; every other column is the same. *)
Theorem C105_transposed_table : forall d d2 z x p b m lo hi det pd z' frames out, transposed d d2 ->
  fst (diffract z x p b m lo hi det) = Ok pd -> project z' d pd frames = Ok out ->
  exists out2, project z' d2 pd frames = Ok out2 /\ Forall2 (relaid exchanged out out2) (pd_peaks out) (pd_peaks out2).
Proof. exact pC105_transposed_table. Qed.
Print Assumptions C105_transposed_table.

(** C105. Listing the corners from the other end of the z edge: the same reflections are recorded, in the same order, with zd measured
    from the other end and the supplement of the incident angle; every other column is the same. *)
Theorem C105_turned_table : forall d d2 z x p b m lo hi det pd z' frames out, turned_over d d2 ->
  fst (diffract z x p b m lo hi det) = Ok pd -> project z' d pd frames = Ok out ->
  exists out2, project z' d2 pd frames = Ok out2 /\ Forall2 (relaid (from_far_end d) out out2) (pd_peaks out) (pd_peaks out2).
Proof. exact pC105_turned_table. Qed.
Print Assumptions C105_turned_table.

