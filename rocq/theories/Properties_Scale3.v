(** Generated by tools/gen_properties.py from PScale3.v: the property theorems,
    verbatim, each closed by [exact]. Contains nothing else. *)
From Verif Require Import Vec Spec MMotion MLaue MMesh MScattering MStrain MBeam SBeam MPolycrystal SPolycrystal MDetector MClip MRender SRender SNano SScale.
From Verif Require Import PMotion PLaue PMesh PBeam PStrain PPolycrystal PPolycrystal2 PDetector PDetector2 PDetector3 PRender PRender2 PRender3 PEvents PEnd2 PFrame PFrame2 PFrame3 PFrame4 PScale PScale2.
From Verif Require Import SDetector.
From Verif Require Import PScale3.
Open Scope list_scope. Open Scope R_scope.

(** The enlarged parts are what the constructors give for enlarged arguments. *)
Theorem C94_built_sample : forall s x coord enod me o st phs mp p, 0 < s ->
  build_mesh coord enod = Ok me -> make_polycrystal x me o st phs mp = Ok p ->
  exists me2 p2, build_mesh (map (vscale s) coord) enod = Ok me2 /\ make_polycrystal x me2 o st phs mp = Ok p2 /\ scaled_sample s p p2.
Proof. exact pC94_built_sample. Qed.
Print Assumptions C94_built_sample.

Theorem C94_built_motion : forall s a w T o m, make_motion a w T o = Ok m ->
  exists m2, make_motion a w (vscale s T) (vscale s o) = Ok m2 /\ scaled_motion s m m2.
Proof. exact pC94_built_motion. Qed.
Print Assumptions C94_built_motion.

Theorem C94_built_detector : forall s c0 c1 c2 np ps sg th mr ul up us, 0 < s ->
  (forall e, make_detector (vscale s c0) (vscale s c1) (vscale s c2) np (scale_sizes s ps) sg th mr ul up us = Err e <-> make_detector c0 c1 c2 np ps sg th mr ul up us = Err e) /\
  (forall d, make_detector c0 c1 c2 np ps sg th mr ul up us = Ok d -> exists d2,
     make_detector (vscale s c0) (vscale s c1) (vscale s c2) np (scale_sizes s ps) sg th mr ul up us = Ok d2 /\ scaled_detector s d d2).
Proof. exact pC94_built_detector. Qed.
Print Assumptions C94_built_detector.

Theorem C94_built_beam : forall s q q2 vs vs2 dir wl pol b b2,
  make_beam q vs dir wl pol = Ok b -> make_beam q2 vs2 dir wl pol = Ok b2 ->
  (forall y, strictly_inside (b_halfspaces b2) (vscale s y) <-> strictly_inside (b_halfspaces b) y) -> scaled_beam s b b2.
Proof. exact pC94_built_beam. Qed.
Print Assumptions C94_built_beam.

Theorem C94_scaled_faces : forall s hs y, 0 < s -> (strictly_inside (map (scaled_halfspace s) hs) (vscale s y) <-> strictly_inside hs y).
Proof. exact pC94_scaled_faces. Qed.
Print Assumptions C94_scaled_faces.

(** Moving both samples keeps them alike. *)
Theorem C94_transform : forall s p p2 m m2 t, scaled_sample s p p2 -> scaled_motion s m m2 -> scaled_sample s (transform p m t) (transform p2 m2 t).
Proof. exact pC94_transform. Qed.
Print Assumptions C94_transform.

