(** Generated by tools/gen_properties.py from PNano8.v: the property theorems,
    verbatim, each closed by [exact]. Contains nothing else. *)
From Verif Require Import Vec Spec MMotion MLaue MMesh MScattering MStrain MBeam MPolycrystal SPolycrystal MDetector SDetector.
From Verif Require Import MRender SRender SNano SNano2 SVolume SJoin SNumber PMotion PLaue PMesh PScattering PBeam PPolycrystal PPolycrystal3 PDetector PDetector2 PDetector3 PDetector4 PRender PRender2 PRenderEx PEvents PEnd2 PJoin2 PJoin3 PJoin4 PNano PNanoEx PNano6 PNano7 PVolume.
From Coq Require Import Permutation String.
From Verif Require Import SBeam SPolycrystal SDetector.
From Verif Require Import PNano8.
Open Scope list_scope. Open Scope R_scope.

Example C101_two_crystals_nonvacuous : exists e z x p1 p2 p b m lo hi pd1 pd2 pd s1 s2 s d out,
  reachable_pc x p1 /\ reachable_pc x p2 /\ reachable_pc x p /\ joined p1 p2 p /\
  diffract z x p1 b m lo hi None = (Ok pd1, s1) /\ diffract z x p2 b m lo hi None = (Ok pd2, s2) /\ diffract z x p b m lo hi None = (Ok pd, s) /\
  built d /\ 0 < d_pz d /\ d_sigma d <> 0 /\ permutes (re_argsort e) /\ project (re_z e) d pd 1 = Ok out /\
  (forall r, In r (pd_peaks out) -> proper_disc out r) /\ uniform_discs d out /\ pd_peaks out <> [].
Proof. exact xC101_two_crystals. Qed.

Example C102_sample_nonvacuous : exists e q z x p b axis angle trans origin m lo hi pd p' d out, made_pc x p /\ reachable_beam q b /\
  make_motion axis angle trans origin = Ok m /\ unit axis /\ diffract z x p b m lo hi None = (Ok pd, p') /\
  built d /\ 0 < d_pz d /\ rectangular (d_c0 d) (d_c1 d) (d_c2 d) /\ permutes (re_argsort e) /\ project (re_z e) d pd 1 = Ok out /\
  (forall r, In r (pd_peaks out) -> ~ has out r "2theta" PI) /\ (forall r, In r (pd_peaks out) -> disc_radius d out r <= 2) /\ pd_peaks out <> [].
Proof. exact xC102_sample. Qed.

(** A moved mesh: rotated about an axis that is not quite of length one, then translated. *)
Example C102_moved_mesh_nonvacuous : exists me m me', build_mesh ex_coord ex_enod = Ok me /\ made_motion m /\ norm (m_axis m) <> 1 /\
  Forall made_op [OUpdate m 1; OTranslate (V3 1 2 3); OUpdate m (1/2)] /\ mesh_run me [OUpdate m 1; OTranslate (V3 1 2 3); OUpdate m (1/2)] = Ok me' /\ me_enod me' <> [].
Proof. exact xC102_moved_mesh. Qed.

