(** Generated by tools/gen_properties.py from PShift.v: the property theorems,
    verbatim, each closed by [exact]. Contains nothing else. *)
From Verif Require Import Vec Spec MMotion MLaue MMesh MScattering MStrain MBeam SBeam MPolycrystal SPolycrystal MDetector MClip MRender SRender SFrame SAperture.
From Verif Require Import PMotion PLaue PMesh PBeam PStrain PPolycrystal PPolycrystal2 PPolycrystal3 PDetector PDetector2 PEvents PJoin PJoin2 PFrame PFrame2 PFrame3 PFrame4 PAperture.
From Verif Require Import SShift SDetector.
From Verif Require Import PShift.
Open Scope list_scope. Open Scope R_scope.

(** C104. Motions of the same rotation take displaced points where the undisplaced ones go, plus a displacement that
    depends on the time only: the turned shift (relative to the rotation centres), the shift of the centre, and the extra travel. *)
Theorem C104_displacement : forall m m2 v, same_turning m m2 ->
  displacement m m2 v (fun s => vadd (vadd (rot_at m s (vsub v (vsub (m_origin m2) (m_origin m)))) (vsub (m_origin m2) (m_origin m)))
                                     (vscale s (vsub (m_trans m2) (m_trans m)))).
Proof. exact pC104_displacement. Qed.
Print Assumptions C104_displacement.

(** C104. Displace the sample (and the motion's rotation centre and travel), keeping orientations and the rotation: diffract
    raises exactly when it did, with the same exception, and the samples afterwards are again displaced copies. *)
Theorem C104_same_failures : forall z x v p p2 b b2 m m2 lo hi, moved_sample mI v p p2 -> same_xrays b b2 -> same_turning m m2 ->
  let out := diffract z x p b m lo hi None in let out2 := diffract z x p2 b2 m2 lo hi None in
  (forall e, fst out2 = Err e <-> fst out = Err e) /\ moved_sample mI v (snd out) (snd out2).
Proof. exact pC104_same_failures. Qed.
Print Assumptions C104_same_failures.

(** C104. The rows whose displaced source is in the (second) beam are, in their order, the rows of the second table whose source was
    in the first beam before it was displaced: same reflection, same time, same vectors and factors, source points w(time) apart. *)
Theorem C104_same_reflections : forall z x v p p2 b b2 m m2 w lo hi pd pd2,
  moved_sample mI v p p2 -> same_xrays b b2 -> same_turning m m2 -> displacement m m2 v w ->
  fst (diffract z x p b m lo hi None) = Ok pd -> fst (diffract z x p2 b2 m2 lo hi None) = Ok pd2 ->
  exists keep keep2, (forall r, In r (pd_peaks pd) -> (keep r = true <-> source_lands w pd b2 r)) /\
    (forall r, In r (pd_peaks pd2) -> (keep2 r = true <-> source_lands (fun s => vneg (w s)) pd2 b r)) /\
    Forall2 (displaced_row w pd pd2) (filter keep (pd_peaks pd)) (filter keep2 (pd_peaks pd2)).
Proof. exact pC104_same_reflections. Qed.
Print Assumptions C104_same_reflections.

(** C104. When no source leaves or enters the beam, the two tables have the same rows in the same order, numbers included. *)
Theorem C104_fully_lit : forall z x v p p2 b b2 m m2 w lo hi pd pd2,
  moved_sample mI v p p2 -> same_xrays b b2 -> same_turning m m2 -> displacement m m2 v w ->
  fst (diffract z x p b m lo hi None) = Ok pd -> fst (diffract z x p2 b2 m2 lo hi None) = Ok pd2 ->
  (forall r, In r (pd_peaks pd) -> source_lands w pd b2 r) ->
  (forall r, In r (pd_peaks pd2) -> source_lands (fun s => vneg (w s)) pd2 b r) ->
  Forall2 (fun r r2 => displaced_row w pd pd2 r r2 /\ field pd2 r2 "peak_index" = field pd r "peak_index") (pd_peaks pd) (pd_peaks pd2).
Proof. exact pC104_fully_lit. Qed.
Print Assumptions C104_fully_lit.

(** C104 is symmetric. *)
Theorem C104_symmetric : forall v p p2 m m2 w b b2, moved_sample mI v p p2 -> displacement m m2 v w -> same_turning m m2 -> same_xrays b b2 ->
  moved_sample mI (vneg v) p2 p /\ displacement m2 m (vneg v) (fun s => vneg (w s)) /\ same_turning m2 m /\ same_xrays b2 b.
Proof. exact pC104_symmetric. Qed.
Print Assumptions C104_symmetric.

(** C104. Such a sample is what one gets by building the mesh from the shifted vertices, with the same other arguments. *)
Theorem C104_built : forall v x coord enod me o st phs mp p, enod <> [] ->
  build_mesh coord enod = Ok me -> make_polycrystal x me o st phs mp = Ok p ->
  exists me2 p2, build_mesh (map (shifted v) coord) enod = Ok me2 /\ make_polycrystal x me2 o st phs mp = Ok p2 /\ moved_sample mI v p p2.
Proof. exact pC104_built. Qed.
Print Assumptions C104_built.

