(** Generated by tools/gen_properties.py from PBack2.v: the property theorems,
    verbatim, each closed by [exact]. Contains nothing else. *)
From Verif Require Import Vec Spec MMotion MLaue MMesh MScattering MStrain MBeam SBeam MPolycrystal SPolycrystal SEvents MDetector SDetector MRender SRender SEnd SScan SBack.
From Verif Require Import PMotion PLaue PMesh PBeam PStrain PPolycrystal PPolycrystal2 PPolycrystal3 PEvents PDetector PRender PRender2 PRender3 PEnd PEnd2 PDetector2 SJoin PJoin PJoin2 PJoin3 PNumber PNumber2 PScan PBack.
From Verif Require Import SPolycrystal SDetector.
From Coq Require Import Permutation.
From Verif Require Import PBack2.
Open Scope list_scope. Open Scope R_scope.

(** ... a call that raises on the way there raises the same on the way back. *)
Theorem C92_same_refusal : forall z x p b a w T o m mb lo hi e p' mp,
  reachable_pc x p -> xtal_ok x -> pc_map p = MapTensor mp -> unit a ->
  make_motion a w T o = Ok m -> make_motion (vneg a) w (vneg T) (vadd o T) = Ok mb ->
  diffract z x p b m lo hi None = (Err e, p') ->
  (forall e pl th, 0 <= th <= w -> reflects p' b a e pl th -> ~ reflects p' b a e pl PI /\ ~ reflects p' b a e pl (w + PI)) ->
  fst (diffract z x (transform p m 1) b mb lo hi None) = Err e.
Proof. exact pC92_same_refusal. Qed.
Print Assumptions C92_same_refusal.

(** ... the pictures come in reverse order: frame k of the scan is frame n - 1 - k of the scan run backwards, unless a reflection
    falls exactly on the edge between two frames or into the blind spot of one of the two calls. *)
Theorem C92_frames_reversed : forall e1 e2 z q b a w T o m mb x p lo hi pd pdb p' qb d n k ml mi ml' mi' im out imb outb i j,
  reachable_beam q b -> unit a -> (k < n)%nat ->
  make_motion a w T o = Ok m -> make_motion (vneg a) w (vneg T) (vadd o T) = Ok mb ->
  reachable_pc x p -> built d -> rectangular (d_c0 d) (d_c1 d) (d_c2 d) ->
  diffract z x p b m lo hi None = (Ok pd, p') -> render e1 d pd (Z.of_nat n) "micro" ml mi = Ok (im, out) ->
  diffract z x (transform p m 1) b mb lo hi None = (Ok pdb, qb) -> render e2 d pdb (Z.of_nat n) "micro" ml' mi' = Ok (imb, outb) ->
  (forall e pl th, w * INR k / INR n <= th <= w * INR (S k) / INR n -> reflects p' b a e pl th ->
     ~ reflects p' b a e pl PI /\ ~ reflects p' b a e pl (w + PI)) ->
  ((0 < k)%nat -> forall e pl, ~ reflects p' b a e pl (w * INR k / INR n)) ->
  ((S k < n)%nat -> forall e pl, ~ reflects p' b a e pl (w * INR (S k) / INR n)) ->
  (i < d_nz d)%nat -> (j < d_ny d)%nat ->
  f_at im k i j = f_at imb (n - 1 - k) i j.
Proof. exact pC92_frames_reversed. Qed.
Print Assumptions C92_frames_reversed.

(** A reflection exactly on the edge between frames k and k + 1 is shown in the former by the scan, and on the way back in the
    frame that mirrors the latter. *)
Theorem C92_edge_changes_frame : forall z a w T o m mb n k p b d s,
  unit a -> (S k < n)%nat ->
  make_motion a w T o = Ok m -> make_motion (vneg a) w (vneg T) (vadd o T) = Ok mb ->
  recorded z p b a m d (Z.of_nat n) s -> sn_time s = INR (S k) / INR n ->
  ~ reflects p b a (sn_element s) (sn_plane s) (w + PI) ->
  sn_frame s = k /\
  recorded z (transform p m 1) b (vneg a) mb d (Z.of_nat n)
    (Seen (sn_element s) (sn_plane s) (1 - INR (S k) / INR n) (n - 1 - S k) (sn_zd s) (sn_yd s) (sn_intensity s) (sn_volume s)).
Proof. exact pC92_edge_changes_frame. Qed.
Print Assumptions C92_edge_changes_frame.

(** A reflection that would also occur half a turn after the end of the motion is lost on the way back, though the way there finds it. *)
Theorem C92_blind_spot : forall a w T o m mb p b e j t,
  unit a -> make_motion a w T o = Ok m -> make_motion (vneg a) w (vneg T) (vadd o T) = Ok mb ->
  0 <= t <= 1 -> reflects p b a e j (w * t) -> ~ reflects p b a e j PI -> reflects p b a e j (w + PI) ->
  (exists G, diffracts_at p b a m e j t G) /\ (forall t' G, ~ diffracts_at (transform p m 1) b (vneg a) mb e j t' G).
Proof. exact pC92_blind_spot. Qed.
Print Assumptions C92_blind_spot.

