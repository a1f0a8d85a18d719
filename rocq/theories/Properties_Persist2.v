(** Generated by tools/gen_properties.py from PPersist2.v: the property theorems,
    verbatim, each closed by [exact]. Contains nothing else. *)
From Verif Require Import Vec Spec MMotion MLaue MMesh MScattering MStrain MBeam SBeam MPolycrystal SPolycrystal MDetector MPersist SPersist.
From Verif Require Import PMotion PMesh PBeam PPolycrystal PPersist.
From Coq Require Import String Ascii.
From Verif Require Import PPersist2.
Open Scope R_scope.

(** A mesh saved without data and loaded again is the mesh that its current node positions and its
    connectivity build - for a freshly built mesh, the same mesh. *)
Theorem C63_save_load_mesh : forall d path me, openable d (with_ext ".xdmf" path) = true ->
  snd (mesh_save d path me None) = Ok tt /\
  mesh_load (fst (fst (mesh_save d path me None))) (with_ext ".xdmf" path) = build_mesh (me_coord me) (me_enod me) /\
  (forall coord enod, build_mesh coord enod = Ok me -> build_mesh (me_coord me) (me_enod me) = Ok me).
Proof. exact pC63_save_load_mesh. Qed.
Print Assumptions C63_save_load_mesh.

(** The companion stands beside the object file when the path has no extension, or is a dotless
    stem with ".pc". *)
Theorem C64_beside : forall path, (~ has_suffix path ".pc" -> pc_paths path = ((path ++ ".pc")%string, (path ++ ".xdmf")%string)) /\
  (forall stem, path = (stem ++ ".pc")%string -> dotless stem -> pc_paths path = (path, (stem ++ ".xdmf")%string)).
Proof. exact pC64_beside. Qed.
Print Assumptions C64_beside.

(** Otherwise everything from the first dot on is lost - also when that dot is in a directory name
    or is the "." or ".." of a relative path. *)
Theorem C64_truncated_refuted : forall a b, dotless a ->
  pc_paths (a ++ "." ++ b ++ ".pc") = ((a ++ "." ++ b ++ ".pc")%string, (a ++ ".xdmf")%string).
Proof. exact pC64_truncated_refuted. Qed.
Print Assumptions C64_truncated_refuted.

(** A save with the companion export succeeds and writes exactly the object file and the companion,
    which holds the sample mesh and the exported fields. *)
Theorem C64_writes : forall ot d path p, exportable p -> openable d (fst (pc_paths path)) = true -> openable d (snd (pc_paths path)) = true ->
  let d' := fst (polycrystal_save ot d path true p) in
  snd (polycrystal_save ot d path true p) = Ok tt /\
  contents d' (fst (pc_paths path)) = Some (FPolycrystal p) /\
  contents d' (snd (pc_paths path)) = Some (FXdmf (me_coord (pc_mesh_sample p)) (me_enod (pc_mesh_sample p)) (map (fun kv => (fst kv, DList [snd kv])) (export_fields ot p))) /\
  forall q, q <> fst (pc_paths path) -> q <> snd (pc_paths path) -> contents d' q = contents d q.
Proof. exact pC64_writes. Qed.
Print Assumptions C64_writes.

(** So two objects whose paths agree up to the first dot share one companion file: after saving
    both, only the second one's mesh is left. *)
Theorem C64_overwrites_refuted : forall ot d a b1 b2 p1 p2, dotless a -> exportable p1 -> exportable p2 -> (forall q, openable d q = true) ->
  let path1 := (a ++ "." ++ b1 ++ ".pc")%string in let path2 := (a ++ "." ++ b2 ++ ".pc")%string in
  let d' := session ot d [SavePolycrystal path1 true p1; SavePolycrystal path2 true p2] in
  contents d' (a ++ ".xdmf")%string = Some (FXdmf (me_coord (pc_mesh_sample p2)) (me_enod (pc_mesh_sample p2)) (map (fun kv => (fst kv, DList [snd kv])) (export_fields ot p2))) /\
  (path1 <> path2 -> polycrystal_load d' path1 = Ok (reload p1)) /\ polycrystal_load d' path2 = Ok (reload p2).
Proof. exact pC64_overwrites_refuted. Qed.
Print Assumptions C64_overwrites_refuted.

(** Saving a mesh with element data rewrites the caller's dictionary: every value comes back
    wrapped in another list. *)
Theorem C69_mutated_refuted : forall d path me ed, (forall k v, In (k, v) ed -> exists cells, v = DList cells /\ List.length cells = List.length (me_enod me)) ->
  snd (fst (mesh_save d path me (Some ed))) = Some (map (fun kv => (fst kv, DList [snd kv])) ed).
Proof. exact pC69_mutated_refuted. Qed.
Print Assumptions C69_mutated_refuted.

(** The first save of consistent data succeeds; the second one with the same dictionary raises
    ValueError and writes nothing, unless the mesh has exactly one element. *)
Theorem C69_second_save_refuted : forall d path me ed, ed <> [] -> (forall k v, In (k, v) ed -> exists cells, v = DList cells /\ List.length cells = List.length (me_enod me)) ->
  openable d (with_ext ".xdmf" path) = true -> List.length (me_enod me) <> 1%nat ->
  snd (mesh_save d path me (Some ed)) = Ok tt /\
  let d' := fst (fst (mesh_save d path me (Some ed))) in let ed' := snd (fst (mesh_save d path me (Some ed))) in
  snd (mesh_save d' path me ed') = Err ValueError /\ fst (fst (mesh_save d' path me ed')) = d'.
Proof. exact pC69_second_save_refuted. Qed.
Print Assumptions C69_second_save_refuted.

Example C69_two_elements_nonvacuous : forall me, List.length (me_enod me) = 2%nat -> exists ed : fields, ed <> [] /\ forall k v, In (k, v) ed -> exists cells, v = DList cells /\ List.length cells = List.length (me_enod me).
Proof. exact xC69_two_elements. Qed.

(** Saving is not atomic: interrupted right after the file was opened, a save has destroyed the
    previous contents, and loading raises; from the moment the pickle is complete, loading returns
    the new object even if the rest of the save (the mesh export) never happens. *)
Theorem C77_interrupted : forall ot d path xdmf p k, openable d (fst (pc_paths path)) = true ->
  let d' := interrupted k d (polycrystal_writes ot path xdmf p) in
  (k = 0%nat -> polycrystal_load d' (with_ext ".pc" path) = polycrystal_load d (with_ext ".pc" path)) /\
  (k = 1%nat -> polycrystal_load d' (with_ext ".pc" path) = Err EOFError) /\
  ((2 <= k)%nat -> polycrystal_load d' (with_ext ".pc" path) = Ok (reload p)).
Proof. exact pC77_interrupted. Qed.
Print Assumptions C77_interrupted.

(** The same for the three single-file kinds. *)
Theorem C77_interrupted_single : forall q d path k m o b, reachable_beam q b -> (forall n, openable d n = true) ->
  let dm := interrupted k d (dump_steps (with_ext ".motion" path) (FMotion m)) in
  let dd := interrupted k d (dump_steps (with_ext ".det" path) (FDetector o)) in
  let db := interrupted k d (dump_steps (with_ext ".beam" path) (FBeam (beam_dump b))) in
  (k = 1%nat -> motion_load dm (with_ext ".motion" path) = Err EOFError /\ detector_load dd (with_ext ".det" path) = Err EOFError /\ beam_load q db (with_ext ".beam" path) = Err EOFError) /\
  ((2 <= k)%nat -> motion_load dm (with_ext ".motion" path) = Ok m /\ detector_load dd (with_ext ".det" path) = Ok o /\ beam_load q db (with_ext ".beam" path) = Ok b).
Proof. exact pC77_interrupted_single. Qed.
Print Assumptions C77_interrupted_single.

(** Every polycrystal reachable through the API can be exported provided its phase map has one
    entry per element. *)
Theorem C64_exportable : forall x p, reachable_pc x p -> List.length (map_values (pc_map p)) = List.length (me_enod (pc_mesh_sample p)) -> exportable p.
Proof. exact pC64_exportable. Qed.
Print Assumptions C64_exportable.

(** What the file shows: at each element, the components of that element's sample-frame strain under
    their names, the angles of its sample-frame orientation in degrees and its phase. *)
Theorem C78_fields : forall ot p e eps U ph, nth_error (pc_eps_sample p) e = Some eps -> nth_error (pc_U_sample p) e = Some U -> nth_error (map_values (pc_map p)) e = Some ph ->
  let value name x := exists l, In (name, DList l) (export_fields ot p) /\ nth_error l e = Some (DNum x) /\ forall l', In (name, DList l') (export_fields ot p) -> l' = l in
  value "Strain Tensor Component xx"%string (dot (V3 1 0 0) (mv eps (V3 1 0 0))) /\ value "Strain Tensor Component yy"%string (dot (V3 0 1 0) (mv eps (V3 0 1 0))) /\
  value "Strain Tensor Component zz"%string (dot (V3 0 0 1) (mv eps (V3 0 0 1))) /\ value "Strain Tensor Component xy"%string (dot (V3 1 0 0) (mv eps (V3 0 1 0))) /\
  value "Strain Tensor Component xz"%string (dot (V3 1 0 0) (mv eps (V3 0 0 1))) /\ value "Strain Tensor Component yz"%string (dot (V3 0 1 0) (mv eps (V3 0 0 1))) /\
  value "Bunge Euler Angle phi_1 [degrees]"%string (fst (fst (u_to_euler ot U)) * (180 / PI)) /\ value "Bunge Euler Angle Phi [degrees]"%string (snd (fst (u_to_euler ot U)) * (180 / PI)) /\
  value "Bunge Euler Angle phi_2 [degrees]"%string (snd (u_to_euler ot U) * (180 / PI)) /\
  value "Misorientation from mean orientation [degrees]"%string (rotation_angle (mm U (mT (mean_rotation ot (pc_U_sample p)))) * (180 / PI)) /\
  value "Material Phase Index"%string ph.
Proof. exact pC78_fields. Qed.
Print Assumptions C78_fields.

(** The export is in sample coordinates: transforming, diffracting and reloading leave it as it was
    at construction. *)
Theorem C78_sample_frame : forall ot x p p', later x p p' -> pc_mesh_sample p' = pc_mesh_sample p /\ export_fields ot p' = export_fields ot p.
Proof. exact pC78_sample_frame. Qed.
Print Assumptions C78_sample_frame.

Example C63_session_nonvacuous : forall ot m1 m2, motion_load (session ot empty_disk [SaveMotion "scan" m1; SaveMotion "scan2.motion" m2]) "scan.motion" = Ok m1 /\
  motion_load (session ot empty_disk [SaveMotion "scan" m1; SaveMotion "scan2.motion" m2]) "scan" = Err ValueError.
Proof. exact xC63_session. Qed.

Example C64_paths_nonvacuous : pc_paths "run.1.pc" = ("run.1.pc", "run.xdmf")%string /\ pc_paths "run.2.pc" = ("run.2.pc", "run.xdmf")%string /\
  pc_paths "./a.pc" = ("./a.pc", ".xdmf")%string /\ pc_paths "./a" = ("./a.pc", "./a.xdmf")%string /\ pc_paths "a.pc" = ("a.pc", "a.xdmf")%string.
Proof. exact xC64_paths. Qed.

Example C64_dotless_nonvacuous : dotless "run".
Proof. exact xC64_dotless. Qed.

Example C77_overwritten_nonvacuous : forall m1 m2, let d := fst (motion_save empty_disk "a" m1) in
  motion_load d "a.motion" = Ok m1 /\ motion_load (interrupted 1 d (dump_steps "a.motion" (FMotion m2))) "a.motion" = Err EOFError.
Proof. exact xC77_overwritten. Qed.

Example C78_field_nonvacuous : forall ot p eps U, pc_eps_sample p = [mzero; eps] -> pc_U_sample p = [mI; U] -> map_values (pc_map p) = [0; 1] ->
  exists l, In ("Strain Tensor Component xy"%string, DList l) (export_fields ot p) /\ nth_error l 1 = Some (DNum (dot (V3 1 0 0) (mv eps (V3 0 1 0)))).
Proof. exact xC78_field. Qed.

(** The exported misorientation of an element turned by the angle th (at most 180 degrees) about any
    axis away from the mean orientation is th in degrees. *)
Theorem C78_misorientation : forall ot p e U ax th, nth_error (pc_U_sample p) e = Some U -> is_rotation (mean_rotation ot (pc_U_sample p)) ->
  unit ax -> 0 <= th <= PI -> (forall v, mv U v = right_handed_rotation ax th (mv (mean_rotation ot (pc_U_sample p)) v)) ->
  exists l, In ("Misorientation from mean orientation [degrees]"%string, DList l) (export_fields ot p) /\ nth_error l e = Some (DNum (th * (180 / PI))).
Proof. exact pC78_misorientation. Qed.
Print Assumptions C78_misorientation.

Example C78_misorientation_nonvacuous : exists (ot : orientation_tools) Us U ax th, nth_error Us 1 = Some U /\ is_rotation (mean_rotation ot Us) /\ unit ax /\ 0 <= th <= PI /\
  (forall v, mv U v = right_handed_rotation ax th (mv (mean_rotation ot Us) v)) /\ 0 < th.
Proof. exact xC78_misorientation. Qed.

