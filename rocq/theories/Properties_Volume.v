(** Generated by tools/gen_properties.py from PVolume.v: the property theorems,
    verbatim, each closed by [exact]. Contains nothing else. *)
From Verif Require Import Vec Spec MMotion MLaue MMesh SMesh MScattering MStrain MBeam MPolycrystal SPolycrystal MDetector MRender SRender SNano SVolume.
From Verif Require Import PMotion PLaue PMesh PMesh2 PScattering PBeam PPolycrystal PDetector PDetector2 PDetector3 PDetector4 PRender PRender2 PEnd2 PNano7.
From Verif Require Import SBeam SPolycrystal SDetector.
From Coq Require Import String.
From Verif Require Import PVolume.
Open Scope list_scope. Open Scope R_scope.

(** C102. A motion accepted by the constructor changes no volume by more than one part in ten thousand, at any time. *)
Theorem C102_motion_volume : forall axis angle trans origin m t a b c d a' b' c' d', make_motion axis angle trans origin = Ok m ->
  motion_call m (P1 a) (S0 t) = Ok (P1 a') -> motion_call m (P1 b) (S0 t) = Ok (P1 b') ->
  motion_call m (P1 c) (S0 t) = Ok (P1 c') -> motion_call m (P1 d) (S0 t) = Ok (P1 d') ->
  exists f, Rabs (f - 1) <= 1 / 10^4 /\ signed_vol6 a' b' c' d' = f * signed_vol6 a b c d /\
    f = 1 + (1 - cos (angle * t))^2 * (norm axis)^2 * ((norm axis)^2 - 1).
Proof. exact pC102_motion_volume. Qed.
Print Assumptions C102_motion_volume.

(** C102. Whatever is done with a mesh, every element stays a genuine tetrahedron. *)
Theorem C102_mesh_solid : forall coord enod me0 ops me, build_mesh coord enod = Ok me0 -> Forall made_op ops -> mesh_run me0 ops = Ok me -> solid me.
Proof. exact pC102_mesh_solid. Qed.
Print Assumptions C102_mesh_solid.

(** C102. Every sample consists of genuine tetrahedra, in the laboratory and in its own frame, and the volume stored for
    each element is the positive Euclidean volume of that element at construction, at all later times. *)
Theorem C102_sample_solid : forall x p, made_pc x p -> solid (pc_mesh_lab p) /\ solid (pc_mesh_sample p) /\
  (forall v, In v (pc_volumes p) -> 0 < v) /\
  (forall e na nb nc nd a b c d, nth_error (me_enod (pc_mesh_sample p)) e = Some (na, nb, nc, nd) ->
     nth_error (me_coord (pc_mesh_sample p)) na = Some a -> nth_error (me_coord (pc_mesh_sample p)) nb = Some b ->
     nth_error (me_coord (pc_mesh_sample p)) nc = Some c -> nth_error (me_coord (pc_mesh_sample p)) nd = Some d ->
     nth_error (pc_volumes p) e = Some (Rabs (signed_vol6 a b c d) / 6)).
Proof. exact pC102_sample_solid. Qed.
Print Assumptions C102_sample_solid.

(** C102. Every row of a peak table of such a sample has a positive volume. *)
Theorem C102_rows_positive : forall z x p b m lo hi det pd p' r, made_pc x p -> diffract z x p b m lo hi det = (Ok pd, p') -> In r (pd_peaks pd) ->
  exists v, has pd r "volumes" v /\ 0 < v.
Proof. exact pC102_rows_positive. Qed.
Print Assumptions C102_rows_positive.

(** C102. Every visible reflection has a positive scattering strength (intensity factor times volume). *)
Theorem C102_strength_positive : forall z z' x p b m lo hi det pd p' d frames out r, made_pc x p -> diffract z x p b m lo hi det = (Ok pd, p') ->
  project z' d pd frames = Ok out -> (1 <= frames)%Z -> In r (pd_peaks out) -> 0 < strength out r.
Proof. exact pC102_strength_positive. Qed.
Print Assumptions C102_strength_positive.

(** C102. Every visible reflection that is not scattered straight back has a diffraction disc of finite size. *)
Theorem C102_discs : forall q z z' x p b axis angle trans origin m lo hi det pd p' d frames out r, made_pc x p -> reachable_beam q b ->
  make_motion axis angle trans origin = Ok m -> unit axis -> diffract z x p b m lo hi det = (Ok pd, p') ->
  built d -> rectangular (d_c0 d) (d_c1 d) (d_c2 d) -> project z' d pd frames = Ok out -> In r (pd_peaks out) ->
  ~ has out r "2theta" PI -> proper_disc out r.
Proof. exact pC102_discs. Qed.
Print Assumptions C102_discs.

(** C102. A 'nano' picture of a sample can always be made on a machine that reports no free memory, and on every machine when
    all discs are at most two pixels in radius, unless a visible reflection is scattered straight back. *)
Theorem C102_nano_succeeds : forall e q z x p b axis angle trans origin m lo hi det pd p' d frames ml mi out, made_pc x p -> reachable_beam q b ->
  make_motion axis angle trans origin = Ok m -> unit axis -> diffract z x p b m lo hi det = (Ok pd, p') ->
  built d -> 0 < d_pz d -> rectangular (d_c0 d) (d_c1 d) (d_c2 d) -> permutes (re_argsort e) ->
  project (re_z e) d pd (if (frames <? 1)%Z then 1%Z else frames) = Ok out ->
  (forall r, In r (pd_peaks out) -> ~ has out r "2theta" PI) ->
  re_free_nano e = 0 \/ (forall r, In r (pd_peaks out) -> disc_radius d out r <= 2) ->
  exists im, render e d pd frames "nano" ml mi = Ok (im, out).
Proof. exact pC102_nano_succeeds. Qed.
Print Assumptions C102_nano_succeeds.

