(** * Specification vocabulary for saving and loading. *)
From Verif Require Import Vec MMotion MMesh MStrain MBeam MPolycrystal MDetector MPersist.
From Coq Require Import String.
Open Scope R_scope.

(** Python's str.endswith, as a relation. *)
Definition has_suffix (s ext : string) : Prop := exists stem, s = (stem ++ ext)%string.
(** A string without a dot. *)
Definition dotless (s : string) : Prop := forall a b, s <> (a ++ "." ++ b)%string.
(** The name an object is saved under: the extension is added once, if missing. *)
Definition saved_under (ext path name : string) : Prop :=
  (has_suffix path ext /\ name = path) \/ (~ has_suffix path ext /\ name = (path ++ ext)%string).
(** Everything a session can save. *)
Inductive save_call :=
| SaveBeam (path : string) (b : beam) | SaveMotion (path : string) (m : motion) | SaveDetector (path : string) (d : detector)
| SavePolycrystal (path : string) (xdmf : bool) (p : polycrystal) | SaveMesh (path : string) (me : mesh).
Definition run_call (ot : orientation_tools) (d : disk) (c : save_call) : disk :=
  match c with
  | SaveBeam path b => fst (beam_save d path b)
  | SaveMotion path m => fst (motion_save d path m)
  | SaveDetector path o => fst (detector_save d path o)
  | SavePolycrystal path x p => fst (polycrystal_save ot d path x p)
  | SaveMesh path me => fst (fst (mesh_save d path me None))
  end.
Definition session (ot : orientation_tools) (d : disk) (l : list save_call) : disk := fold_left (run_call ot) l d.
(** Main file a call writes. *)
Definition main_file (c : save_call) : string :=
  match c with
  | SaveBeam path _ => with_ext ".beam" path | SaveMotion path _ => with_ext ".motion" path
  | SaveDetector path _ => with_ext ".det" path | SavePolycrystal path _ _ => with_ext ".pc" path
  | SaveMesh path _ => with_ext ".xdmf" path end.
(** Data lengths agree with the mesh, as they do for every polycrystal the constructor makes
    : the export can be written. *)
Definition exportable (p : polycrystal) : Prop :=
  let N := List.length (me_enod (pc_mesh_sample p)) in
  List.length (pc_eps_sample p) = N /\ List.length (pc_U_sample p) = N /\ List.length (map_values (pc_map p)) = N.
(** The individual writes of Polycrystal.save, in order; an interrupted save has performed some
    first k of them. *)
Definition polycrystal_writes (ot : orientation_tools) (path : string) (xdmf : bool) (p : polycrystal) : list wstep :=
  (dump_steps (fst (pc_paths path)) (FPolycrystal p) ++
   if xdmf then mesh_save_steps (snd (pc_paths path)) (pc_mesh_sample p) (map (fun kv => (fst kv, DList [snd kv])) (export_fields ot p)) else [])%list.
Definition interrupted (k : nat) (d : disk) (writes : list wstep) : disk := fst (run_steps d (firstn k writes)).
(** The states of one polycrystal object during a session: it can be moved, diffracted and reloaded. *)
Inductive later (x : xtal) (p : polycrystal) : polycrystal -> Prop :=
| l_same : later x p p
| l_transform p' m t : later x p p' -> later x p (transform p' m t)
| l_diffract z p' b m lo hi det : later x p p' -> later x p (snd (diffract z x p' b m lo hi det))
| l_reload p' : later x p p' -> later x p (reload p').
