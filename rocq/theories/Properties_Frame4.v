(** Generated by tools/gen_properties.py from PFrame4.v: the property theorems,
    verbatim, each closed by [exact]. Contains nothing else. *)
From Verif Require Import Vec Spec MMotion MLaue MMesh MScattering MStrain MBeam SBeam MPolycrystal SPolycrystal MDetector MClip MRender SRender SNano SFrame.
From Verif Require Import PMotion PLaue PMesh PBeam PStrain PPolycrystal PPolycrystal2 PPolycrystal3 PDetector PDetector2 PDetector3 PRender PRender2 PRender3 PEvents PEnd2 PFrame PFrame2 PFrame3.
From Verif Require Import SDetector.
From Verif Require Import PFrame4.
Open Scope list_scope. Open Scope R_scope.

(** The same experiment somewhere else: the same exception, or the same table with its vectors turned
    along; the sample afterwards is again the moved copy. *)
Theorem C89_same_table : forall A t z x p p2 b b2 m m2 lo hi d d2, is_rotation A ->
  moved_sample A t p p2 -> moved_beam A t b b2 -> moved_motion A t m m2 -> moved_choice A t d d2 ->
  let out := diffract z x p b m lo hi (cone_arg z d) in let out2 := diffract z x p2 b2 m2 lo hi (cone_arg z d2) in
  (forall e, fst out2 = Err e <-> fst out = Err e) /\
  (forall pd, fst out = Ok pd -> exists pd2, fst out2 = Ok pd2 /\ Forall2 (moved_row A t pd pd2) (pd_peaks pd) (pd_peaks pd2)) /\
  moved_sample A t (snd out) (snd out2).
Proof. exact pC89_same_table. Qed.
Print Assumptions C89_same_table.

(** ... the moved detector records the same 'micro' picture, and the same projected table. *)
Theorem C89_same_picture : forall A t z x p p2 b b2 m m2 lo hi d d2 s s2 pd pd2 e frames ml mi im out, is_rotation A ->
  moved_sample A t p p2 -> moved_beam A t b b2 -> moved_motion A t m m2 -> moved_choice A t d d2 -> moved_detector A t s s2 ->
  fst (diffract z x p b m lo hi (cone_arg z d)) = Ok pd -> fst (diffract z x p2 b2 m2 lo hi (cone_arg z d2)) = Ok pd2 ->
  render e s pd frames "micro" ml mi = Ok (im, out) ->
  exists out2, render e s2 pd2 frames "micro" ml mi = Ok (im, out2) /\ Forall2 (moved_row A t out out2) (pd_peaks out) (pd_peaks out2).
Proof. exact pC89_same_picture. Qed.
Print Assumptions C89_same_picture.

(** ... and the same 'nano' picture, provided the first detector corner is as far from the lab origin as
    before (pure rotations about the origin, for instance). *)
Theorem C89_same_nano_picture : forall A t z x p p2 b b2 m m2 lo hi d d2 s s2 pd pd2 e frames ml mi im out, is_rotation A ->
  moved_sample A t p p2 -> moved_beam A t b b2 -> moved_motion A t m m2 -> moved_choice A t d d2 -> moved_detector A t s s2 ->
  norm (d_c0 s2) = norm (d_c0 s) ->
  fst (diffract z x p b m lo hi (cone_arg z d)) = Ok pd -> fst (diffract z x p2 b2 m2 lo hi (cone_arg z d2)) = Ok pd2 ->
  render e s pd frames "nano" ml mi = Ok (im, out) ->
  exists out2, render e s2 pd2 frames "nano" ml mi = Ok (im, out2).
Proof. exact pC89_same_nano_picture. Qed.
Print Assumptions C89_same_nano_picture.

(** In general it is not: every Airy disc is scaled by the ratio of the distances of the first detector
    corner from the lab origin. *)
Theorem C89_nano_shift_refuted : forall A t z x p p2 b b2 m m2 lo hi d d2 s s2 pd pd2 z' frames out out2, is_rotation A ->
  moved_sample A t p p2 -> moved_beam A t b b2 -> moved_motion A t m m2 -> moved_choice A t d d2 -> moved_detector A t s s2 ->
  fst (diffract z x p b m lo hi (cone_arg z d)) = Ok pd -> fst (diffract z x p2 b2 m2 lo hi (cone_arg z d2)) = Ok pd2 ->
  project z' s pd frames = Ok out -> project z' s2 pd2 frames = Ok out2 -> d_c0 s <> vzero ->
  Forall2 (fun r r2 => disc_radius s2 out2 r2 = norm (put A t (d_c0 s)) / norm (d_c0 s) * disc_radius s out r) (pd_peaks out) (pd_peaks out2).
Proof. exact pC89_nano_shift_refuted. Qed.
Print Assumptions C89_nano_shift_refuted.

(** ... by transform: *)
Theorem C89_transformed_sample : forall p g s, unit (m_axis g) -> exists A t, is_rotation A /\
  (forall y, put A t y = move_at g s y) /\ moved_sample A t p (transform p g s).
Proof. exact pC89_transformed_sample. Qed.
Print Assumptions C89_transformed_sample.

(** ... by building the sample there: moved vertices, turned orientations and strains. *)
Theorem C89_built_sample : forall A t x coord enod me o st phs mp p, is_rotation A -> enod <> [] ->
  build_mesh coord enod = Ok me -> make_polycrystal x me o st phs mp = Ok p ->
  exists me2 p2, build_mesh (map (put A t) coord) enod = Ok me2 /\
    make_polycrystal x me2 (mats_map (mm A) o) (mats_map (fun e => mm (mm A e) (mT A)) st) phs mp = Ok p2 /\ moved_sample A t p p2.
Proof. exact pC89_built_sample. Qed.
Print Assumptions C89_built_sample.

(** ... by constructing the motion and the detector with moved arguments (they are accepted or refused
    exactly as before), and the beam with turned direction and polarization, when the convex hull
    routine describes the moved beam region. *)
Theorem C89_built_motion : forall A t a w T o m, is_rotation A ->
  make_motion a w T o = Ok m -> exists m2, make_motion (mv A a) w (mv A T) (put A t o) = Ok m2 /\ moved_motion A t m m2.
Proof. exact pC89_built_motion. Qed.
Print Assumptions C89_built_motion.

Theorem C89_built_detector : forall A t c0 c1 c2 np ps sg th mr ul up us, is_rotation A ->
  (forall e, make_detector (put A t c0) (put A t c1) (put A t c2) np ps sg th mr ul up us = Err e <-> make_detector c0 c1 c2 np ps sg th mr ul up us = Err e) /\
  (forall d, make_detector c0 c1 c2 np ps sg th mr ul up us = Ok d -> exists d2,
     make_detector (put A t c0) (put A t c1) (put A t c2) np ps sg th mr ul up us = Ok d2 /\ moved_detector A t d d2).
Proof. exact pC89_built_detector. Qed.
Print Assumptions C89_built_detector.

Theorem C89_built_beam : forall A t q q2 vs vs2 dir wl pol b b2, is_rotation A ->
  make_beam q vs dir wl pol = Ok b -> make_beam q2 vs2 (mv A dir) wl (mv A pol) = Ok b2 ->
  (forall y, strictly_inside (b_halfspaces b2) (put A t y) <-> strictly_inside (b_halfspaces b) y) -> moved_beam A t b b2.
Proof. exact pC89_built_beam. Qed.
Print Assumptions C89_built_beam.

Theorem C89_moved_faces : forall A t hs y, is_rotation A ->
  (strictly_inside (map (moved_halfspace A t) hs) (put A t y) <-> strictly_inside hs y).
Proof. exact pC89_moved_faces. Qed.
Print Assumptions C89_moved_faces.

(** ** Non-vacuity *)
Example C89_elsewhere_nonvacuous : exists A t z x p p2 b b2 m m2 lo hi d d2 pd pd2 e im out,
  is_rotation A /\ t <> vzero /\ A <> mI /\ moved_sample A t p p2 /\ moved_beam A t b b2 /\ moved_motion A t m m2 /\ moved_detector A t d d2 /\
  fst (diffract z x p b m lo hi (cone_arg z None)) = Ok pd /\ fst (diffract z x p2 b2 m2 lo hi (cone_arg z None)) = Ok pd2 /\
  render e d pd 1 "micro" None 1 = Ok (im, out) /\ d_c0 d <> vzero /\ norm (put A t (d_c0 d)) <> norm (d_c0 d).
Proof. exact xC89_elsewhere. Qed.

