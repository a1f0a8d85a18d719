(** Generated by tools/gen_properties.py from PScan.v: the property theorems,
    verbatim, each closed by [exact]. Contains nothing else. *)
From Verif Require Import Vec Spec MMotion MLaue MMesh MScattering MStrain MBeam SBeam MPolycrystal SPolycrystal SEvents MDetector SDetector MRender SRender SEnd SScan.
From Verif Require Import PMotion PLaue PMesh PBeam PStrain PPolycrystal PPolycrystal2 PPolycrystal3 PEvents PDetector PRender PRender2 PRender3 PEnd PEnd2 PDetector2.
From Verif Require Import SDetector.
From Coq Require Import Permutation.
From Verif Require Import PScan.
Open Scope list_scope. Open Scope R_scope.

(** C88. One scan with n frames and n scans with one frame, turning the sample on by one step in between, give the
    same pictures: frame k of the former is the frame of step k of the latter.  The rotation axis must be parallel to
    the translation; no reflection may fall on the edge between this frame and the one before it or into a blind spot
    of the two calls. *)
Theorem C88_frames_are_steps : forall e1 e2 z q b a w T o m mn x p lo hi pd p' d n k pdk pk ml mi ml' mi' im out imk outk i j,
  reachable_beam q b -> unit a -> cross a T = vzero -> (k < n)%nat ->
  make_motion a w T o = Ok m -> make_motion a (w / INR n) (vscale (/ INR n) T) o = Ok mn ->
  reachable_pc x p -> built d -> rectangular (d_c0 d) (d_c1 d) (d_c2 d) ->
  diffract z x p b m lo hi None = (Ok pd, p') -> render e1 d pd (Z.of_nat n) "micro" ml mi = Ok (im, out) ->
  diffract z x (transforms (repeat (mn, 1) k) p) b mn lo hi None = (Ok pdk, pk) -> render e2 d pdk 1 "micro" ml' mi' = Ok (imk, outk) ->
  (forall e pl th, w * INR k / INR n <= th <= w * (INR k + 1) / INR n -> reflects p' b a e pl th ->
     ~ reflects p' b a e pl PI /\ ~ reflects p' b a e pl (w * INR k / INR n + PI)) ->
  ((0 < k)%nat -> forall e pl, ~ reflects p' b a e pl (w * INR k / INR n)) ->
  (i < d_nz d)%nat -> (j < d_ny d)%nat ->
  f_at im k i j = f_at imk 0 i j.
Proof. exact pC88_frames_are_steps. Qed.
Print Assumptions C88_frames_are_steps.

(** A reflection exactly on the edge between two frames: the scan shows it once, in the earlier frame; the two steps
    both show it. *)
Theorem C88_edge_shown_twice : forall z a w T o m mn n k p b d s,
  unit a -> cross a T = vzero -> (S k < n)%nat ->
  make_motion a w T o = Ok m -> make_motion a (w / INR n) (vscale (/ INR n) T) o = Ok mn ->
  recorded z p b a m d (Z.of_nat n) s -> sn_time s = INR (S k) / INR n ->
  ~ reflects p b a (sn_element s) (sn_plane s) (w * INR k / INR n + PI) ->
  ~ reflects p b a (sn_element s) (sn_plane s) (w * INR (S k) / INR n + PI) ->
  sn_frame s = k /\
  recorded z (transforms (repeat (mn, 1) k) p) b a mn d 1
    (Seen (sn_element s) (sn_plane s) 1 0 (sn_zd s) (sn_yd s) (sn_intensity s) (sn_volume s)) /\
  recorded z (transforms (repeat (mn, 1) (S k)) p) b a mn d 1
    (Seen (sn_element s) (sn_plane s) 0 0 (sn_zd s) (sn_yd s) (sn_intensity s) (sn_volume s)).
Proof. exact pC88_edge_shown_twice. Qed.
Print Assumptions C88_edge_shown_twice.

(** A reflection that would also occur half a turn after the start of the scan is lost by the scan (C08), but step k
    finds it if it does not occur half a turn after the start of that step. *)
Theorem C88_blind_spot : forall a w T o m mn n k p b e j,
  unit a -> cross a T = vzero -> (k < n)%nat ->
  make_motion a w T o = Ok m -> make_motion a (w / INR n) (vscale (/ INR n) T) o = Ok mn ->
  reflects p b a e j PI ->
  (forall z d N s, sn_element s = e -> sn_plane s = j -> ~ recorded z p b a m d N s) /\
  (forall t, 0 <= t <= 1 -> reflects p b a e j (w * ((INR k + t) / INR n)) -> ~ reflects p b a e j (w * INR k / INR n + PI) ->
     exists G, diffracts_at (transforms (repeat (mn, 1) k) p) b a mn e j t G).
Proof. exact pC88_blind_spot. Qed.
Print Assumptions C88_blind_spot.

(** Two crystal planes that reflect once in each of the two frames: at 0 and at pi/2. *)
Example C88_scan_nonvacuous : exists e1 e2 z q b a w T o m mn x p lo hi pd p' d n k pdk pk ml mi ml' mi' im out imk outk,
  reachable_beam q b /\ unit a /\ cross a T = vzero /\ (k < n)%nat /\ (0 < k)%nat /\
  make_motion a w T o = Ok m /\ make_motion a (w / INR n) (vscale (/ INR n) T) o = Ok mn /\
  reachable_pc x p /\ built d /\ rectangular (d_c0 d) (d_c1 d) (d_c2 d) /\
  diffract z x p b m lo hi None = (Ok pd, p') /\ render e1 d pd (Z.of_nat n) "micro" ml mi = Ok (im, out) /\
  diffract z x (transforms (repeat (mn, 1) k) p) b mn lo hi None = (Ok pdk, pk) /\ render e2 d pdk 1 "micro" ml' mi' = Ok (imk, outk) /\
  (forall e pl th, w * INR k / INR n <= th <= w * (INR k + 1) / INR n -> reflects p' b a e pl th ->
     ~ reflects p' b a e pl PI /\ ~ reflects p' b a e pl (w * INR k / INR n + PI)) /\
  ((0 < k)%nat -> forall e pl, ~ reflects p' b a e pl (w * INR k / INR n)) /\
  (exists e pl th, w * INR k / INR n <= th <= w * (INR k + 1) / INR n /\ reflects p' b a e pl th).
Proof. exact xC88_scan. Qed.

(** A reflection in the blind spot of the scan, which the second of two steps finds. *)
Example C88_blind_nonvacuous : exists a w T o m mn n k p b e j t q x,
  reachable_beam q b /\ (exists p0 lo hi, reachable_pc x p0 /\ p = snd (diffract false x p0 b m lo hi None)) /\
  unit a /\ cross a T = vzero /\ (k < n)%nat /\
  make_motion a w T o = Ok m /\ make_motion a (w / INR n) (vscale (/ INR n) T) o = Ok mn /\
  reflects p b a e j PI /\ 0 <= t <= 1 /\ reflects p b a e j (w * ((INR k + t) / INR n)) /\ ~ reflects p b a e j (w * INR k / INR n + PI).
Proof. exact xC88_blind. Qed.

(** A reflection exactly between the second and the third of three frames. *)
Example C88_edge_nonvacuous : exists z a w T o m mn n k p b d s q x,
  reachable_beam q b /\ (exists p0 lo hi, reachable_pc x p0 /\ p = snd (diffract false x p0 b m lo hi None)) /\ built d /\
  unit a /\ cross a T = vzero /\ (S k < n)%nat /\
  make_motion a w T o = Ok m /\ make_motion a (w / INR n) (vscale (/ INR n) T) o = Ok mn /\
  recorded z p b a m d (Z.of_nat n) s /\ sn_time s = INR (S k) / INR n /\
  ~ reflects p b a (sn_element s) (sn_plane s) (w * INR k / INR n + PI) /\
  ~ reflects p b a (sn_element s) (sn_plane s) (w * INR (S k) / INR n + PI).
Proof. exact xC88_edge. Qed.

