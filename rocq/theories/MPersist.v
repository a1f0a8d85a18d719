(** * Model of saving and loading: beam.py:195-262, motion.py:219-262, detector.py:180-227,
    polycrystal.py:435-542, mesh.py:272-320.  No proofs in this file. *)
From Verif Require Import Vec MMotion MLaue MMesh MScattering MStrain MBeam MPolycrystal MDetector.
From Coq Require Import String Ascii.
Open Scope R_scope.

(** ** Path strings *)
(** str.endswith *)
Definition ends_with (s ext : string) : bool :=
  Nat.leb (String.length ext) (String.length s) && String.eqb (substring (String.length s - String.length ext) (String.length ext) s) ext.
(** str.split(".")[0] *)
Fixpoint before_dot (s : string) : string :=
  match s with
  | EmptyString => EmptyString
  | String c r => if Ascii.eqb c "." then EmptyString else String c (before_dot r)
  end.
(** beam.py:204-205, motion.py:228-229, detector.py:188-189, polycrystal.py:455-460 *)
Definition with_ext (ext path : string) : string := if ends_with path ext then path else (path ++ ext)%string.

(** ** The disk *)
(** Values of an element_data dictionary (numbers and nested lists; an array is a list). *)
Inductive data := DNum (x : R) | DList (l : list data).
Definition fields := list (string * data).
(** A file is what dill or meshio wrote to it; [Incomplete] is a file that has been opened for
    writing (and so emptied) but whose contents are not all there yet.  (The .h5 companion meshio
    writes beside an .xdmf file is part of that [FXdmf].) *)
Inductive file :=
| FBeam (b : beam_file) | FMotion (m : motion) | FDetector (d : detector) | FPolycrystal (p : polycrystal)
| FXdmf (coord : list vec) (enod : list (nat * nat * nat * nat)) (cells : fields) | Incomplete.
(** [openable p]: open(p, "wb") succeeds (directory exists, permission).  Fixed during a run. *)
Record disk := Disk { openable : string -> bool; contents : string -> option file }.
Definition put (d : disk) (path : string) (f : file) : disk :=
  Disk (openable d) (fun q => if String.eqb q path then Some f else contents d q).
(** One step of writing: the file as it is after the step. *)
Definition wstep := (string * file)%type.
Fixpoint run_steps (d : disk) (l : list wstep) : disk * result unit :=
  match l with
  | [] => (d, Ok tt)
  | (p, f) :: r => if openable d p then run_steps (put d p f) r else (d, Err FileNotFoundError)
  end.
(** open(path, "wb") followed by dump *)
Definition dump_steps (path : string) (f : file) : list wstep := [(path, Incomplete); (path, f)].
(** open(path, "rb"): what a load finds. *)
Definition read (d : disk) (path : string) : result file :=
  match contents d path with None => Err FileNotFoundError | Some Incomplete => Err EOFError | Some f => Ok f end.

(** ** Beam, motion, detector *)
Definition beam_save (d : disk) (path : string) (b : beam) : disk * result unit :=
  run_steps d (dump_steps (with_ext ".beam" path) (FBeam (beam_dump b))).
(** Unpickling some other kind of object: outside the model, TypeError here. *)
Definition beam_load (q : qhull) (d : disk) (path : string) : result beam :=
  if ends_with path ".beam" then
    let* f := read d path in match f with FBeam b => beam_undump q b | _ => Err TypeError end
  else Err ValueError.
Definition motion_save (d : disk) (path : string) (m : motion) : disk * result unit :=
  run_steps d (dump_steps (with_ext ".motion" path) (FMotion m)).
Definition motion_load (d : disk) (path : string) : result motion :=
  if ends_with path ".motion" then
    let* f := read d path in match f with FMotion m => Ok m | _ => Err TypeError end
  else Err ValueError.
(** detector.py:214-227: the conversions to tensors are identities on tensors. *)
Definition detector_save (d : disk) (path : string) (o : detector) : disk * result unit :=
  run_steps d (dump_steps (with_ext ".det" path) (FDetector o)).
Definition detector_load (d : disk) (path : string) : result detector :=
  if ends_with path ".det" then
    let* f := read d path in match f with FDetector m => Ok m | _ => Err TypeError end
  else Err ValueError.

(** ** Mesh, mesh.py:272-320 *)
(** 288-293: every value of the caller's dictionary is replaced, in the dictionary itself, by a
    one-element list; list() of a number is a TypeError, with the earlier keys already replaced. *)
Fixpoint wrap_fields (l : fields) : fields * result unit :=
  match l with
  | [] => ([], Ok tt)
  | (k, DList v) :: r => let '(r', res) := wrap_fields r in ((k, DList [DList v]) :: r', res)
  | (k, DNum x) :: r => ((k, DNum x) :: r, Err TypeError)
  end.
(** meshio's consistency check of cell data: one entry per cell block (there is one block), with
    one value per cell. *)
Definition cell_data_ok (N : nat) (v : data) : bool :=
  match v with DList [DList cells] => Nat.eqb (List.length cells) N | _ => false end.
(** 283-301.  Returns the caller's dictionary after the call as well. *)
Definition mesh_save_steps (path : string) (me : mesh) (cells : fields) : list wstep :=
  dump_steps (with_ext ".xdmf" path) (FXdmf (me_coord me) (me_enod me) cells).
Definition mesh_save (d : disk) (path : string) (me : mesh) (element_data : option fields) : disk * option fields * result unit :=
  match element_data with
  | None => let '(d', r) := run_steps d (mesh_save_steps path me []) in (d', None, r)
  | Some ed =>
      match wrap_fields ed with
      | (ed', Err e) => (d, Some ed', Err e)
      | (ed', Ok _) =>
          if forallb (fun kv => cell_data_ok (List.length (me_enod me)) (snd kv)) ed'
          then let '(d', r) := run_steps d (mesh_save_steps path me ed') in (d', Some ed', r)
          else (d, Some ed', Err ValueError)
      end
  end.
(** 303-320: meshio.read and _build_tetramesh (the cell data are not used). *)
Definition mesh_load (d : disk) (path : string) : result mesh :=
  let* f := read d path in match f with FXdmf c e _ => build_mesh c e | _ => Err ValueError end.

(** ** Polycrystal *)
(** External: xfab tools.u_to_euler (radians) and scipy's mean rotation. *)
Record orientation_tools := OTools { u_to_euler : mat -> R * R * R; mean_rotation : list mat -> mat }.
Definition degrees (x : R) : R := x * (180 / PI).
(** Rotation.magnitude of a rotation matrix. *)
Definition rotation_angle (A : mat) : R := acos ((vx (r1 A) + vy (r2 A) + vz (r3 A) - 1) / 2).
(** utils.py:361-387 *)
Definition get_misorientations (ot : orientation_tools) (Us : list mat) : list R :=
  let m := mean_rotation ot Us in map (fun U => rotation_angle (mm U (mT m))) Us.
Definition column (l : list R) : data := DList (map DNum l).
(** polycrystal.py:464-492 *)
Definition export_fields (ot : orientation_tools) (p : polycrystal) : fields :=
  let e := pc_eps_sample p in let Us := pc_U_sample p in
  [("Strain Tensor Component xx", column (map (fun A => vx (r1 A)) e)); ("Strain Tensor Component yy", column (map (fun A => vy (r2 A)) e));
   ("Strain Tensor Component zz", column (map (fun A => vz (r3 A)) e)); ("Strain Tensor Component xy", column (map (fun A => vy (r1 A)) e));
   ("Strain Tensor Component xz", column (map (fun A => vz (r1 A)) e)); ("Strain Tensor Component yz", column (map (fun A => vz (r2 A)) e));
   ("Bunge Euler Angle phi_1 [degrees]", column (map (fun U => degrees (fst (fst (u_to_euler ot U)))) Us));
   ("Bunge Euler Angle Phi [degrees]", column (map (fun U => degrees (snd (fst (u_to_euler ot U)))) Us));
   ("Bunge Euler Angle phi_2 [degrees]", column (map (fun U => degrees (snd (u_to_euler ot U))) Us));
   ("Misorientation from mean orientation [degrees]", column (map degrees (get_misorientations ot Us)));
   ("Material Phase Index", column (map_values (pc_map p)))]%string.
(** 455-460 *)
Definition pc_paths (path : string) : string * string :=
  if ends_with path ".pc" then (path, (before_dot path ++ ".xdmf")%string) else ((path ++ ".pc")%string, (path ++ ".xdmf")%string).
(** 435-493: the pickle is written first. *)
Definition polycrystal_save (ot : orientation_tools) (d : disk) (path : string) (xdmf : bool) (p : polycrystal) : disk * result unit :=
  let '(pickle_path, xdmf_path) := pc_paths path in
  match run_steps d (dump_steps pickle_path (FPolycrystal p)) with
  | (d', Err e) => (d', Err e)
  | (d', Ok _) => if xdmf then let '(d'', _, r) := mesh_save d' xdmf_path (pc_mesh_sample p) (Some (export_fields ot p)) in (d'', r) else (d', Ok tt)
  end.
(** 495-542 *)
Definition polycrystal_load (d : disk) (path : string) : result polycrystal :=
  if ends_with path ".pc" then
    let* f := read d path in match f with FPolycrystal p => Ok (reload p) | _ => Err TypeError end
  else Err ValueError.
