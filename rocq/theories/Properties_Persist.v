(** Generated by tools/gen_properties.py from PPersist.v: the property theorems,
    verbatim, each closed by [exact]. Contains nothing else. *)
From Verif Require Import Vec Spec MMotion MLaue MMesh MScattering MStrain MBeam SBeam MPolycrystal SPolycrystal MDetector MPersist SPersist.
From Verif Require Import PMesh PBeam PPolycrystal.
From Coq Require Import String Ascii.
From Verif Require Import PPersist.
Open Scope R_scope.

(** The extension is added exactly once, and adding it again changes nothing. *)
Theorem C63_names : forall path ext, saved_under ext path (with_ext ext path) /\ has_suffix (with_ext ext path) ext /\ with_ext ext (with_ext ext path) = with_ext ext path.
Proof. exact pC63_names. Qed.
Print Assumptions C63_names.

(** Saving then loading under the saved name returns the object; an existing file is replaced. *)
Theorem C63_save_load_motion : forall d path m, openable d (with_ext ".motion" path) = true ->
  snd (motion_save d path m) = Ok tt /\ motion_load (fst (motion_save d path m)) (with_ext ".motion" path) = Ok m.
Proof. exact pC63_save_load_motion. Qed.
Print Assumptions C63_save_load_motion.

Theorem C63_save_load_detector : forall d path o, openable d (with_ext ".det" path) = true ->
  snd (detector_save d path o) = Ok tt /\ detector_load (fst (detector_save d path o)) (with_ext ".det" path) = Ok o.
Proof. exact pC63_save_load_detector. Qed.
Print Assumptions C63_save_load_detector.

Theorem C63_save_load_beam : forall q d path b, reachable_beam q b -> openable d (with_ext ".beam" path) = true ->
  snd (beam_save d path b) = Ok tt /\ beam_load q (fst (beam_save d path b)) (with_ext ".beam" path) = Ok b.
Proof. exact pC63_save_load_beam. Qed.
Print Assumptions C63_save_load_beam.

(** The polycrystal comes back with its phase map as a tensor and everything else
    unchanged, whether or not the mesh export succeeds. *)
Theorem C63_save_load_polycrystal : forall ot d path xdmf p, openable d (with_ext ".pc" path) = true ->
  polycrystal_load (fst (polycrystal_save ot d path xdmf p)) (with_ext ".pc" path) = Ok (reload p).
Proof. exact pC63_save_load_polycrystal. Qed.
Print Assumptions C63_save_load_polycrystal.

(** Loading demands the extension, whatever is on disk, and reports a missing file. *)
Theorem C63_load_refuses : forall q d path,
  (~ has_suffix path ".beam" -> beam_load q d path = Err ValueError) /\ (~ has_suffix path ".motion" -> motion_load d path = Err ValueError) /\
  (~ has_suffix path ".det" -> detector_load d path = Err ValueError) /\ (~ has_suffix path ".pc" -> polycrystal_load d path = Err ValueError).
Proof. exact pC63_load_refuses. Qed.
Print Assumptions C63_load_refuses.

Theorem C63_load_missing : forall q d path, contents d path = None ->
  (has_suffix path ".beam" -> beam_load q d path = Err FileNotFoundError) /\ (has_suffix path ".motion" -> motion_load d path = Err FileNotFoundError) /\
  (has_suffix path ".det" -> detector_load d path = Err FileNotFoundError) /\ (has_suffix path ".pc" -> polycrystal_load d path = Err FileNotFoundError).
Proof. exact pC63_load_missing. Qed.
Print Assumptions C63_load_missing.

(** After any session, loading a name returns the object most recently saved under that name;
    objects of different kinds and mesh exports never interfere, whatever their paths. *)
Theorem C63_history : forall ot q d before after c, openable d (main_file c) = true -> (forall c', In c' after -> main_file c' <> main_file c) ->
  let final := session ot d (before ++ c :: after) in
  match c with
  | SaveBeam path b => reachable_beam q b -> beam_load q final (with_ext ".beam" path) = Ok b
  | SaveMotion path m => motion_load final (with_ext ".motion" path) = Ok m
  | SaveDetector path o => detector_load final (with_ext ".det" path) = Ok o
  | SavePolycrystal path _ p => polycrystal_load final (with_ext ".pc" path) = Ok (reload p)
  | SaveMesh _ _ => True
  end.
Proof. exact pC63_history. Qed.
Print Assumptions C63_history.

(** Names of different kinds differ, so the condition above concerns only saves of the same kind. *)
Theorem C63_kinds_apart : forall e1 e2 p1 p2, In e1 [".beam"; ".motion"; ".det"; ".pc"; ".xdmf"]%string -> In e2 [".beam"; ".motion"; ".det"; ".pc"; ".xdmf"]%string ->
  e1 <> e2 -> with_ext e1 p1 <> with_ext e2 p2.
Proof. exact pC63_kinds_apart. Qed.
Print Assumptions C63_kinds_apart.

