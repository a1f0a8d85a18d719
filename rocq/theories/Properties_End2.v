(** Generated by tools/gen_properties.py from PEnd2.v: the property theorems,
    verbatim, each closed by [exact]. Contains nothing else. *)
From Verif Require Import Vec Spec MMotion PMotion MLaue PLaue MMesh SMesh PMesh MScattering SScattering PScattering.
From Verif Require Import MStrain SStrain PStrain MBeam SBeam PBeam MPolycrystal SPolycrystal SEvents PPolycrystal PPolycrystal2 PPolycrystal3 PEvents.
From Verif Require Import MDetector SDetector PDetector PDetector2 PDetector3 PDetector4 MClip MRender SRender PRender PRender2 SEnd PEnd.
From Coq Require Import Permutation.
From Verif Require Import PEnd2.
Open Scope R_scope.

(** C84. Every pixel of every frame of the rendered image is the sum, over all reflections of the sample that meet the
    Laue condition while lit and whose ray hits the detector with positive intensity, of the Gaussian spot of that
    reflection: each reflection exactly once, a grazing one twice. *)
Theorem C84_image_is_sum_of_reflections : forall e z q b a w T o m x p lo hi det pd p' d frames ml mi im out,
  reachable_beam q b -> make_motion a w T o = Ok m -> unit a -> reachable_pc x p ->
  built d -> rectangular (d_c0 d) (d_c1 d) (d_c2 d) ->
  diffract z x p b m lo hi det = (Ok pd, p') -> render e d pd frames "micro" ml mi = Ok (im, out) ->
  exists all twice : list seen,
    NoDup all /\ (forall s, In s all <-> recorded z p' b a m d (Z.max 1 frames) s) /\
    NoDup twice /\ (forall s, In s twice <-> recorded z p' b a m d (Z.max 1 frames) s /\ grazes p' b a m s) /\
    forall f i j, in_image im f i j -> f_at im f i j = Fin (sum_list (map (spot_at d f i j) (all ++ twice))).
Proof. exact pC84_image_is_sum_of_reflections. Qed.
Print Assumptions C84_image_is_sum_of_reflections.

(** No light without a cause: a non-zero pixel is within the kernel radius (plus half a pixel) of the spot of a
    reflection that belongs to that frame. *)
Theorem C84_light_has_a_cause : forall e z q b a w T o m x p lo hi det pd p' d frames ml mi im out f i j,
  reachable_beam q b -> make_motion a w T o = Ok m -> unit a -> reachable_pc x p ->
  built d -> rectangular (d_c0 d) (d_c1 d) (d_c2 d) ->
  diffract z x p b m lo hi det = (Ok pd, p') -> render e d pd frames "micro" ml mi = Ok (im, out) ->
  in_image im f i j -> f_at im f i j <> Fin 0 ->
  exists s, recorded z p' b a m d (Z.max 1 frames) s /\ sn_frame s = f /\
    Rabs (INR i - sn_zd s / d_pz d) <= IZR (micro_radius d) + 1/2 /\ Rabs (INR j - sn_yd s / d_py d) <= IZR (micro_radius d) + 1/2.
Proof. exact pC84_light_has_a_cause. Qed.
Print Assumptions C84_light_has_a_cause.

(** Nothing is lost: every reflection that belongs to the picture shows with its full spot in its frame. *)
Theorem C84_every_reflection_shows : forall e z q b a w T o m x p lo hi det pd p' d frames ml mi im out s i j,
  reachable_beam q b -> make_motion a w T o = Ok m -> unit a -> reachable_pc x p ->
  built d -> rectangular (d_c0 d) (d_c1 d) (d_c2 d) ->
  diffract z x p b m lo hi det = (Ok pd, p') -> render e d pd frames "micro" ml mi = Ok (im, out) ->
  recorded z p' b a m d (Z.max 1 frames) s -> in_image im (sn_frame s) i j ->
  exists v, f_at im (sn_frame s) i j = Fin v /\ spot_at d (sn_frame s) i j s <= v.
Proof. exact pC84_every_reflection_shows. Qed.
Print Assumptions C84_every_reflection_shows.

Example C84_experiment_nonvacuous : exists e z q b a w T o m x p lo hi det pd p' d frames im out s,
  reachable_beam q b /\ make_motion a w T o = Ok m /\ unit a /\ reachable_pc x p /\
  built d /\ rectangular (d_c0 d) (d_c1 d) (d_c2 d) /\
  diffract z x p b m lo hi det = (Ok pd, p') /\ render e d pd frames "micro" None 1 = Ok (im, out) /\
  recorded z p' b a m d (Z.max 1 frames) s.
Proof. exact xC84_experiment. Qed.

