(** Generated by tools/gen_properties.py from PShift3.v: the property theorems,
    verbatim, each closed by [exact]. Contains nothing else. *)
From Verif Require Import Vec Spec MMotion MLaue MMesh MScattering MStrain MBeam SBeam MPolycrystal SPolycrystal MDetector MClip MRender SRender SFrame SAperture.
From Verif Require Import PMotion PLaue PMesh PBeam PStrain PPolycrystal PPolycrystal2 PPolycrystal3 PDetector PDetector2 PEvents PEnd PEnd2 PJoin PJoin2 PFrame PFrame2 PFrame3 PFrame4 PAperture PPass2 PShift PShift2.
From Verif Require Import SShift SDetector.
From Verif Require Import PShift3.
Open Scope list_scope. Open Scope R_scope.

Example C104_displaced_nonvacuous : exists z z' x v p p2 b m m2 w lo hi pd pd2 d frames out out2 r t k src q sz sy,
  reachable_pc x p /\ v <> vzero /\ m_trans m2 <> m_trans m /\ m_origin m2 <> m_origin m /\
  moved_sample mI v p p2 /\ same_xrays b b /\ same_turning m m2 /\ displacement m m2 v w /\
  fst (diffract z x p b m lo hi None) = Ok pd /\ fst (diffract z x p2 b m2 lo hi None) = Ok pd2 /\
  built d /\ rectangular (d_c0 d) (d_c1 d) (d_c2 d) /\ project z' d pd frames = Ok out /\ project z' d pd2 frames = Ok out2 /\
  In r (pd_peaks out) /\ has out r "diffraction_times" t /\ has_vec out r "K_out_x" "K_out_y" "K_out_z" k /\ source_of out r src /\
  strictly_inside (b_halfspaces b) (vadd src (w t)) /\ hits (d_c0 d) (d_c1 d) (d_c2 d) (vadd src (w t)) k q /\
  seen_as d k (w t) sz sy /\ sz <> 0 /\ sy <> 0.
Proof. exact xC104_displaced. Qed.

