(** Generated by tools/gen_properties.py from PBack3.v: the property theorems,
    verbatim, each closed by [exact]. Contains nothing else. *)
From Verif Require Import Vec Spec MMotion MLaue MMesh MScattering MStrain MBeam SBeam MPolycrystal SPolycrystal SEvents MDetector SDetector MRender SRender SEnd SScan SBack.
From Verif Require Import PMotion PLaue PMesh PBeam PStrain PPolycrystal PPolycrystal2 PPolycrystal3 PEvents PDetector PRender PRender2 PRender3 PEnd PEnd2 PDetector2 SJoin PJoin PJoin2 PJoin3 PNumber PNumber2 PScan PBack PBack2.
From Verif Require Import SPolycrystal SDetector.
From Coq Require Import Permutation.
From Verif Require Import PBack3.
Open Scope list_scope. Open Scope R_scope.

(** Two planes that reflect at the angles 0 and pi/2, in the first and in the second of two frames; the sample also moves
    across the rotation axis. *)
Example C92_scan_nonvacuous : exists e1 e2 z q b a w T o m mb x p lo hi pd p' pdb qb d n k ml mi ml' mi' im out imb outb mp,
  reachable_beam q b /\ unit a /\ cross a T <> vzero /\ (k < n)%nat /\ (0 < k)%nat /\ reachable_pc x p /\ xtal_ok x /\ pc_map p = MapTensor mp /\
  make_motion a w T o = Ok m /\ make_motion (vneg a) w (vneg T) (vadd o T) = Ok mb /\
  built d /\ rectangular (d_c0 d) (d_c1 d) (d_c2 d) /\
  diffract z x p b m lo hi None = (Ok pd, p') /\ render e1 d pd (Z.of_nat n) "micro" ml mi = Ok (im, out) /\
  diffract z x (transform p m 1) b mb lo hi None = (Ok pdb, qb) /\ render e2 d pdb (Z.of_nat n) "micro" ml' mi' = Ok (imb, outb) /\
  (forall e pl th, 0 <= th <= w -> reflects p' b a e pl th -> ~ reflects p' b a e pl PI /\ ~ reflects p' b a e pl (w + PI)) /\
  (forall e pl, ~ reflects p' b a e pl (w * INR k / INR n)) /\
  (exists e pl th, w * INR k / INR n <= th <= w * INR (S k) / INR n /\ reflects p' b a e pl th) /\ List.length (pd_peaks pd) <> O.
Proof. exact xC92_scan. Qed.

(** A reflection exactly between the second and the third of three frames. *)
Example C92_edge_nonvacuous : exists z a w T o m mb n k p b d s q x,
  reachable_beam q b /\ (exists p0 lo hi, reachable_pc x p0 /\ p = snd (diffract false x p0 b m lo hi None)) /\ built d /\
  unit a /\ (S k < n)%nat /\ make_motion a w T o = Ok m /\ make_motion (vneg a) w (vneg T) (vadd o T) = Ok mb /\
  recorded z p b a m d (Z.of_nat n) s /\ sn_time s = INR (S k) / INR n /\
  ~ reflects p b a (sn_element s) (sn_plane s) (w + PI).
Proof. exact xC92_edge. Qed.

(** A quarter turn from an angle at which a plane reflects to one half a turn away from another such angle. *)
Example C92_blind_nonvacuous : exists a w T o m mb p b e j t q x,
  reachable_beam q b /\ (exists p0 lo hi, reachable_pc x p0 /\ p = snd (diffract false x p0 b m lo hi None)) /\
  unit a /\ make_motion a w T o = Ok m /\ make_motion (vneg a) w (vneg T) (vadd o T) = Ok mb /\
  0 <= t <= 1 /\ reflects p b a e j (w * t) /\ ~ reflects p b a e j PI /\ reflects p b a e j (w + PI).
Proof. exact xC92_blind. Qed.

