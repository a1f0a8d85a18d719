(** * Mesh export, its path, the caller's dictionary and interrupted saves (C63, C64, C69, C77, C78). *)
From Verif Require Import Vec Spec MMotion MLaue MMesh MScattering MStrain MBeam SBeam MPolycrystal SPolycrystal MDetector MPersist SPersist.
From Verif Require Import PMotion PMesh PBeam PPolycrystal PPersist.
From Coq Require Import String Ascii.
Open Scope R_scope.
Local Notation len := List.length.

(** ** Meshes *)
(** A mesh saved without data and loaded again is the mesh that its current node positions and its
    connectivity build - for a freshly built mesh, the same mesh. *)
Lemma pC63_save_load_mesh : forall d path me, openable d (with_ext ".xdmf" path) = true ->
  snd (mesh_save d path me None) = Ok tt /\
  mesh_load (fst (fst (mesh_save d path me None))) (with_ext ".xdmf" path) = build_mesh (me_coord me) (me_enod me) /\
  (forall coord enod, build_mesh coord enod = Ok me -> build_mesh (me_coord me) (me_enod me) = Ok me).
Proof.
  intros d path me H. unfold mesh_save, mesh_save_steps, mesh_load, read. rewrite dump_run by auto. cbn [fst snd]. rewrite put_same. cbn [bind]. split; auto. split; auto.
  intros coord enod B. pose proof B as B'. apply build_mesh_inv in B' as (ts & ss & _ & _ & E). rewrite E at 1 2. exact B.
Qed.
(** ** The companion file of Polycrystal.save *)
Lemma before_dot_spec a b : dotless a -> before_dot (a ++ "." ++ b) = a.
Proof.
  induction a as [|c a IH]; intros H; cbn [append before_dot]; [reflexivity|]. destruct (Ascii.eqb_spec c "."%char) as [->|N].
  - exfalso. apply (H ""%string a). reflexivity.
  - f_equal. apply IH. intros x y E. apply (H (String c x) y). cbn [append]. now rewrite E.
Qed.
Lemma dot_pc s : (s ++ ".pc")%string = (s ++ "." ++ "pc")%string. Proof. reflexivity. Qed.
(** The companion stands beside the object file when the path has no extension, or is a dotless
    stem with ".pc". *)
Lemma pC64_beside : forall path, (~ has_suffix path ".pc" -> pc_paths path = ((path ++ ".pc")%string, (path ++ ".xdmf")%string)) /\
  (forall stem, path = (stem ++ ".pc")%string -> dotless stem -> pc_paths path = (path, (stem ++ ".xdmf")%string)).
Proof.
  intros path. split.
  - intros H. apply ends_with_false in H. unfold pc_paths. now rewrite H.
  - intros stem -> D. unfold pc_paths. replace (ends_with (stem ++ ".pc") ".pc") with true by (symmetry; apply ends_with_spec; now exists stem). now rewrite dot_pc, before_dot_spec.
Qed.
(** Otherwise everything from the first dot on is lost - also when that dot is in a directory name
    or is the "." or ".." of a relative path. *)
Lemma pC64_truncated_refuted : forall a b, dotless a ->
  pc_paths (a ++ "." ++ b ++ ".pc") = ((a ++ "." ++ b ++ ".pc")%string, (a ++ ".xdmf")%string).
Proof.
  intros a b D. unfold pc_paths. replace (ends_with _ ".pc") with true; [now rewrite before_dot_spec|]. symmetry. apply ends_with_spec. exists (a ++ "." ++ b)%string. now rewrite !append_assoc.
Qed.
Lemma wrap_columns l : wrap_fields (map (fun kv => (fst kv, column (snd kv))) l) = (map (fun kv => (fst kv, DList [column (snd kv)])) l, Ok tt).
Proof. induction l as [|[k v] l IH]; cbn [map wrap_fields fst snd]; auto. unfold column at 1. cbn [wrap_fields]. unfold column in *. now rewrite IH. Qed.
Lemma wrap_all l : (forall kv, In kv l -> exists v, snd kv = DList v) -> wrap_fields l = (map (fun kv => (fst kv, DList [snd kv])) l, Ok tt).
Proof.
  induction l as [|[k v] l IH]; intros H; cbn [map wrap_fields]; auto. destruct (H (k, v) (or_introl eq_refl)) as (w & E). cbn [snd] in E. subst v. cbn [fst snd]. rewrite IH by (intros; apply H; now right). reflexivity.
Qed.
Lemma export_lists ot p kv : In kv (export_fields ot p) -> exists v, snd kv = column v /\ (exportable p -> len v = len (me_enod (pc_mesh_sample p))).
Proof.
  unfold export_fields, get_misorientations. cbv zeta. cbn [In]. intros H. unfold exportable.
  repeat (destruct H as [<-|H]; [eexists; split; [reflexivity|]; intros (A & B & C); rewrite ?map_length; auto|]). destruct H.
Qed.
Lemma export_saved ot d path p : exportable p -> openable d (with_ext ".xdmf" path) = true ->
  let cells := map (fun kv => (fst kv, DList [snd kv])) (export_fields ot p) in
  mesh_save d path (pc_mesh_sample p) (Some (export_fields ot p)) = (fst (run_steps d (mesh_save_steps path (pc_mesh_sample p) cells)), Some cells, Ok tt).
Proof.
  intros X O cells. unfold mesh_save. rewrite wrap_all by (intros kv H; destruct (export_lists ot p kv H) as (v & E & _); unfold column in E; eauto). fold cells.
  replace (forallb _ cells) with true.
  - unfold mesh_save_steps. rewrite dump_run by auto. reflexivity.
  - symmetry. apply forallb_forall. intros kv H. unfold cells in H. apply in_map_iff in H as (kv0 & <- & H). destruct (export_lists ot p kv0 H) as (v & E & L). cbn [snd]. rewrite E. unfold cell_data_ok, column. rewrite map_length, L by auto. apply Nat.eqb_refl.
Qed.
Lemma xdmf_name path : with_ext ".xdmf" (snd (pc_paths path)) = snd (pc_paths path).
Proof. unfold with_ext. pose proof (xdmf_suffix path) as X. apply ends_with_spec in X. now rewrite X. Qed.
Lemma pc_save_steps ot d path x p : exportable p -> openable d (fst (pc_paths path)) = true -> (x = true -> openable d (snd (pc_paths path)) = true) ->
  polycrystal_save ot d path x p = run_steps d (polycrystal_writes ot path x p) /\ snd (polycrystal_save ot d path x p) = Ok tt.
Proof.
  intros X O1 O2. unfold polycrystal_save, polycrystal_writes. pose proof (xdmf_name path) as XN. destruct (pc_paths path) as [pp xp] eqn:P. cbn [fst snd] in *. rewrite dump_run by auto. cbn [dump_steps app run_steps put openable]. rewrite O1.
  destruct x; [|split; reflexivity]. specialize (O2 eq_refl). rewrite export_saved; [|auto|cbn [put openable]; now rewrite XN]. cbn [snd]. unfold mesh_save_steps. rewrite XN. rewrite !dump_run by (cbn [put openable]; auto). cbn [fst]. split; [|reflexivity]. cbn [dump_steps run_steps put openable]. rewrite ?O2. reflexivity.
Qed.
(** A save with the companion export succeeds and writes exactly the object file and the companion,
    which holds the sample mesh and the exported fields. *)
Lemma pC64_writes : forall ot d path p, exportable p -> openable d (fst (pc_paths path)) = true -> openable d (snd (pc_paths path)) = true ->
  let d' := fst (polycrystal_save ot d path true p) in
  snd (polycrystal_save ot d path true p) = Ok tt /\
  contents d' (fst (pc_paths path)) = Some (FPolycrystal p) /\
  contents d' (snd (pc_paths path)) = Some (FXdmf (me_coord (pc_mesh_sample p)) (me_enod (pc_mesh_sample p)) (map (fun kv => (fst kv, DList [snd kv])) (export_fields ot p))) /\
  forall q, q <> fst (pc_paths path) -> q <> snd (pc_paths path) -> contents d' q = contents d q.
Proof.
  intros ot d path p X O1 O2. cbv zeta. destruct (pc_save_steps ot d path true p X O1 (fun _ => O2)) as [E S]. split; auto. rewrite E. unfold polycrystal_writes, mesh_save_steps. rewrite xdmf_name. destruct (pc_paths path) as [pp xp] eqn:P. cbn [fst snd] in *.
  assert (N : xp <> pp). { intros ->. pose proof (pc_path_fst path) as A. pose proof (xdmf_suffix path) as B. rewrite P in A, B. cbn [fst snd] in *. pose proof (with_ext_suffix ".pc" path) as C. rewrite <- A in C. differ C B. }
  cbn [dump_steps app run_steps put openable]. rewrite O1, O2. cbn [fst]. split; [|split].
  - rewrite !(put_other _ xp) by auto. apply put_same.
  - apply put_same.
  - intros q H1 H2. rewrite !put_other by auto. reflexivity.
Qed.
(** So two objects whose paths agree up to the first dot share one companion file: after saving
    both, only the second one's mesh is left. *)
Lemma pC64_overwrites_refuted : forall ot d a b1 b2 p1 p2, dotless a -> exportable p1 -> exportable p2 -> (forall q, openable d q = true) ->
  let path1 := (a ++ "." ++ b1 ++ ".pc")%string in let path2 := (a ++ "." ++ b2 ++ ".pc")%string in
  let d' := session ot d [SavePolycrystal path1 true p1; SavePolycrystal path2 true p2] in
  contents d' (a ++ ".xdmf")%string = Some (FXdmf (me_coord (pc_mesh_sample p2)) (me_enod (pc_mesh_sample p2)) (map (fun kv => (fst kv, DList [snd kv])) (export_fields ot p2))) /\
  (path1 <> path2 -> polycrystal_load d' path1 = Ok (reload p1)) /\ polycrystal_load d' path2 = Ok (reload p2).
Proof.
  intros ot d a b1 b2 p1 p2 D X1 X2 O. cbv zeta. set (path1 := (a ++ "." ++ b1 ++ ".pc")%string). set (path2 := (a ++ "." ++ b2 ++ ".pc")%string). set (d1 := run_call ot d (SavePolycrystal path1 true p1)).
  assert (O1 : forall q, openable d1 q = true) by (intros q; unfold d1; rewrite call_openable; apply O).
  destruct (pC64_writes ot d1 path2 p2 X2 (O1 _) (O1 _)) as (_ & W1 & W2 & _). assert (PP : pc_paths path2 = (path2, (a ++ ".xdmf")%string)) by (apply pC64_truncated_refuted; auto). rewrite PP in W1, W2. cbn [fst snd] in W1, W2.
  assert (S1 : has_suffix path1 ".pc") by (exists (a ++ "." ++ b1)%string; unfold path1; now rewrite !append_assoc). assert (S2 : has_suffix path2 ".pc") by (exists (a ++ "." ++ b2)%string; unfold path2; now rewrite !append_assoc).
  assert (E1 : with_ext ".pc" path1 = path1) by (unfold with_ext; apply ends_with_spec in S1; now rewrite S1). assert (E2 : with_ext ".pc" path2 = path2) by (unfold with_ext; apply ends_with_spec in S2; now rewrite S2).
  split; [exact W2|]. split.
  - intros N. pose proof (pC63_history ot (Qhull (fun _ => Err ValueError) (fun _ => Err ValueError) (fun _ => Err ValueError)) d [] [SavePolycrystal path2 true p2] (SavePolycrystal path1 true p1) (O _)) as H. cbn [app main_file] in H. rewrite E1 in H. apply H. intros c [<-|[]]. cbn [main_file]. rewrite E2. congruence.
  - pose proof (pC63_save_load_polycrystal ot d1 path2 true p2 (O1 _)) as H. rewrite E2 in H. exact H.
Qed.

(** ** The caller's dictionary *)
(** Saving a mesh with element data rewrites the caller's dictionary: every value comes back
    wrapped in another list. *)
Lemma pC69_mutated_refuted : forall d path me ed, (forall k v, In (k, v) ed -> exists cells, v = DList cells /\ List.length cells = List.length (me_enod me)) ->
  snd (fst (mesh_save d path me (Some ed))) = Some (map (fun kv => (fst kv, DList [snd kv])) ed).
Proof.
  intros d path me ed H. unfold mesh_save. rewrite wrap_all by (intros [k v] Hin; destruct (H k v Hin) as (c & -> & _); cbn [snd]; eauto). destruct (forallb _ _); auto. destruct (run_steps _ _) as [d' r]. reflexivity.
Qed.
(** The first save of consistent data succeeds; the second one with the same dictionary raises
    ValueError and writes nothing, unless the mesh has exactly one element. *)
Lemma pC69_second_save_refuted : forall d path me ed, ed <> [] -> (forall k v, In (k, v) ed -> exists cells, v = DList cells /\ List.length cells = List.length (me_enod me)) ->
  openable d (with_ext ".xdmf" path) = true -> List.length (me_enod me) <> 1%nat ->
  snd (mesh_save d path me (Some ed)) = Ok tt /\
  let d' := fst (fst (mesh_save d path me (Some ed))) in let ed' := snd (fst (mesh_save d path me (Some ed))) in
  snd (mesh_save d' path me ed') = Err ValueError /\ fst (fst (mesh_save d' path me ed')) = d'.
Proof.
  intros d path me ed NE H O N1. assert (S : snd (mesh_save d path me (Some ed)) = Ok tt).
  { unfold mesh_save. rewrite wrap_all by (intros [k v] Hin; destruct (H k v Hin) as (c & -> & _); cbn [snd]; eauto). replace (forallb _ _) with true; [unfold mesh_save_steps; rewrite dump_run by auto; reflexivity|].
    symmetry. apply forallb_forall. intros kv Hk. apply in_map_iff in Hk as ([k v] & <- & Hin). destruct (H k v Hin) as (c & -> & L). cbn [snd cell_data_ok]. now apply Nat.eqb_eq. }
  split; auto. cbv zeta. rewrite (pC69_mutated_refuted d path me ed H). set (d' := fst (fst _)). clearbody d'. unfold mesh_save.
  rewrite wrap_all by (intros kv Hk; apply in_map_iff in Hk as ([k v] & <- & _); cbn [snd]; eauto).
  replace (forallb _ _) with false; [split; reflexivity|]. symmetry. destruct ed as [|[k v] ed]; [contradiction|]. cbn [map forallb fst snd cell_data_ok]. destruct (H k v (or_introl eq_refl)) as (c & -> & L). cbn [cell_data_ok List.length]. destruct (1 =? len (me_enod me))%nat eqn:E; [apply Nat.eqb_eq in E; lia|reflexivity].
Qed.
Lemma xC69_two_elements : forall me, List.length (me_enod me) = 2%nat -> exists ed : fields, ed <> [] /\ forall k v, In (k, v) ed -> exists cells, v = DList cells /\ List.length cells = List.length (me_enod me).
Proof. intros me H. exists [("stress"%string, column [1; 2])]. split; [discriminate|]. intros k v [E|[]]. exists [DNum 1; DNum 2]. rewrite H. split; [unfold column in E; cbn [map] in E; congruence|reflexivity]. Qed.

Lemma openable_put d p f q : openable (put d p f) q = openable d q. Proof. reflexivity. Qed.
(** ** Interrupted saves *)
(** Saving is not atomic: interrupted right after the file was opened, a save has destroyed the
    previous contents, and loading raises; from the moment the pickle is complete, loading returns
    the new object even if the rest of the save (the mesh export) never happens. *)
Lemma pC77_interrupted : forall ot d path xdmf p k, openable d (fst (pc_paths path)) = true ->
  let d' := interrupted k d (polycrystal_writes ot path xdmf p) in
  (k = 0%nat -> polycrystal_load d' (with_ext ".pc" path) = polycrystal_load d (with_ext ".pc" path)) /\
  (k = 1%nat -> polycrystal_load d' (with_ext ".pc" path) = Err EOFError) /\
  ((2 <= k)%nat -> polycrystal_load d' (with_ext ".pc" path) = Ok (reload p)).
Proof.
  intros ot d path x p k O. cbv zeta. unfold interrupted, polycrystal_writes, mesh_save_steps. rewrite xdmf_name, <- pc_path_fst. pose proof (xdmf_suffix path) as X. pose proof (pc_path_fst path) as PF. set (pp := fst (pc_paths path)) in *. set (xp := snd (pc_paths path)) in *. clearbody xp.
  assert (SP : ends_with pp ".pc" = true) by (rewrite PF; apply ends_with_ext).
  assert (N : pp <> xp). { intros <-. rewrite PF in X. pose proof (with_ext_suffix ".pc" path) as C. differ C X. } clearbody pp. unfold polycrystal_load, read. rewrite SP.
  split; [intros ->; reflexivity|]. split.
  - intros ->. cbn [dump_steps app firstn run_steps]. rewrite O. cbn [fst]. now rewrite put_same.
  - intros Hk. destruct k as [|[|k]]; try lia. cbn [dump_steps app firstn run_steps]. rewrite ?openable_put, O.
    destruct x; [|rewrite firstn_nil; cbn [run_steps fst]; now rewrite put_same].
    destruct k as [|[|k]]; cbn [dump_steps firstn run_steps]; rewrite ?openable_put; [cbn [fst]; now rewrite put_same| |].
    + destruct (openable d xp); cbn [run_steps fst]; [rewrite put_other by auto|]; now rewrite put_same.
    + destruct (openable d xp); cbn [run_steps fst]; [|now rewrite put_same]. rewrite firstn_nil. cbn [run_steps fst]. rewrite !(put_other _ xp) by auto. now rewrite put_same.
Qed.
(** The same for the three single-file kinds. *)
Lemma pC77_interrupted_single : forall q d path k m o b, reachable_beam q b -> (forall n, openable d n = true) ->
  let dm := interrupted k d (dump_steps (with_ext ".motion" path) (FMotion m)) in
  let dd := interrupted k d (dump_steps (with_ext ".det" path) (FDetector o)) in
  let db := interrupted k d (dump_steps (with_ext ".beam" path) (FBeam (beam_dump b))) in
  (k = 1%nat -> motion_load dm (with_ext ".motion" path) = Err EOFError /\ detector_load dd (with_ext ".det" path) = Err EOFError /\ beam_load q db (with_ext ".beam" path) = Err EOFError) /\
  ((2 <= k)%nat -> motion_load dm (with_ext ".motion" path) = Ok m /\ detector_load dd (with_ext ".det" path) = Ok o /\ beam_load q db (with_ext ".beam" path) = Ok b).
Proof.
  intros q d path k m o b Rb O. cbv zeta. unfold interrupted, motion_load, detector_load, beam_load, read. rewrite !ends_with_ext. split.
  - intros ->. cbn [dump_steps firstn run_steps]. rewrite !O. cbn [fst]. rewrite !put_same. auto.
  - intros Hk. destruct k as [|[|k]]; try lia. cbn [dump_steps firstn run_steps put openable]. rewrite !O, firstn_nil. cbn [run_steps fst]. rewrite !put_same. cbn [bind]. split; auto. split; auto. now apply pC24_roundtrip.
Qed.

(** ** What is exported *)
Lemma sample_inv x p : reachable_pc x p -> let N := len (me_enod (pc_mesh_sample p)) in len (pc_eps_sample p) = N /\ len (pc_U_sample p) = N.
Proof.
  induction 1 as [coord enod me0 ops me o s phs mp p Hb Hr Hp Hm|p m t H IH|z p b m lo hi det H IH|p H IH]; auto.
  - apply make_pc_inv in Hm as (tets & U & eps & pm & eB & H0 & H1 & H2 & H3 & H4 & ->). cbn. apply instantiate_mats_length in H1. apply instantiate_mats_length in H2. auto.
  - destruct (diffract_state z x p b m lo hi det) as (phs' & -> & _). exact IH.
Qed.
(** Every polycrystal reachable through the API can be exported provided its phase map has one
    entry per element. *)
Lemma pC64_exportable : forall x p, reachable_pc x p -> List.length (map_values (pc_map p)) = List.length (me_enod (pc_mesh_sample p)) -> exportable p.
Proof. intros x p H L. destruct (sample_inv x p H) as [A B]. repeat split; auto. Qed.
(** What the file shows: at each element, the components of that element's sample-frame strain under
    their names, the angles of its sample-frame orientation in degrees and its phase. *)
Lemma pC78_fields : forall ot p e eps U ph, nth_error (pc_eps_sample p) e = Some eps -> nth_error (pc_U_sample p) e = Some U -> nth_error (map_values (pc_map p)) e = Some ph ->
  let value name x := exists l, In (name, DList l) (export_fields ot p) /\ nth_error l e = Some (DNum x) /\ forall l', In (name, DList l') (export_fields ot p) -> l' = l in
  value "Strain Tensor Component xx"%string (dot (V3 1 0 0) (mv eps (V3 1 0 0))) /\ value "Strain Tensor Component yy"%string (dot (V3 0 1 0) (mv eps (V3 0 1 0))) /\
  value "Strain Tensor Component zz"%string (dot (V3 0 0 1) (mv eps (V3 0 0 1))) /\ value "Strain Tensor Component xy"%string (dot (V3 1 0 0) (mv eps (V3 0 1 0))) /\
  value "Strain Tensor Component xz"%string (dot (V3 1 0 0) (mv eps (V3 0 0 1))) /\ value "Strain Tensor Component yz"%string (dot (V3 0 1 0) (mv eps (V3 0 0 1))) /\
  value "Bunge Euler Angle phi_1 [degrees]"%string (fst (fst (u_to_euler ot U)) * (180 / PI)) /\ value "Bunge Euler Angle Phi [degrees]"%string (snd (fst (u_to_euler ot U)) * (180 / PI)) /\
  value "Bunge Euler Angle phi_2 [degrees]"%string (snd (u_to_euler ot U) * (180 / PI)) /\
  value "Misorientation from mean orientation [degrees]"%string (rotation_angle (mm U (mT (mean_rotation ot (pc_U_sample p)))) * (180 / PI)) /\
  value "Material Phase Index"%string ph.
Proof.
  intros ot p e eps U ph H1 H2 H3. cbv zeta. unfold export_fields, get_misorientations, column. cbv zeta. rewrite !map_map.
  assert (A : forall (f : mat -> R) x, f eps = x -> nth_error (map (fun a => DNum (f a)) (pc_eps_sample p)) e = Some (DNum x)) by (intros f x <-; now apply (map_nth_error (fun a => DNum (f a)))).
  assert (B : forall (f : mat -> R) x, f U = x -> nth_error (map (fun a => DNum (f a)) (pc_U_sample p)) e = Some (DNum x)) by (intros f x <-; now apply (map_nth_error (fun a => DNum (f a)))).
  assert (C : nth_error (map DNum (map_values (pc_map p))) e = Some (DNum ph)) by (now apply (map_nth_error DNum)).
  Ltac fld := eexists; split; [cbn [In]; repeat (first [left; reflexivity|right])|split; [|cbn [In]; intros l' HH; repeat (destruct HH as [HH|HH]; [try discriminate HH; congruence|]); destruct HH]].
  repeat split; fld; try (apply A; destruct eps as [[? ? ?] [? ? ?] [? ? ?]]; vunf; ring); try (apply B; reflexivity). exact C.
Qed.
(** The export is in sample coordinates: transforming, diffracting and reloading leave it as it was
    at construction. *)
Lemma pC78_sample_frame : forall ot x p p', later x p p' -> pc_mesh_sample p' = pc_mesh_sample p /\ export_fields ot p' = export_fields ot p.
Proof.
  intros ot x p p' H. induction H as [|p' m t H IH|z p' b m lo hi det H IH|p' H IH]; auto.
  destruct (diffract_state z x p' b m lo hi det) as (phs' & -> & _). exact IH.
Qed.

(** ** Examples *)
Definition empty_disk : disk := Disk (fun _ => true) (fun _ => None).
Lemma xC63_session : forall ot m1 m2, motion_load (session ot empty_disk [SaveMotion "scan" m1; SaveMotion "scan2.motion" m2]) "scan.motion" = Ok m1 /\
  motion_load (session ot empty_disk [SaveMotion "scan" m1; SaveMotion "scan2.motion" m2]) "scan" = Err ValueError.
Proof. intros. split; reflexivity. Qed.
Lemma xC64_paths : pc_paths "run.1.pc" = ("run.1.pc", "run.xdmf")%string /\ pc_paths "run.2.pc" = ("run.2.pc", "run.xdmf")%string /\
  pc_paths "./a.pc" = ("./a.pc", ".xdmf")%string /\ pc_paths "./a" = ("./a.pc", "./a.xdmf")%string /\ pc_paths "a.pc" = ("a.pc", "a.xdmf")%string.
Proof. repeat split. Qed.
Lemma xC64_dotless : dotless "run".
Proof. intros a b H. destruct a as [|c0 [|c1 [|c2 [|? a]]]]; cbn in H; congruence. Qed.
Lemma xC77_overwritten : forall m1 m2, let d := fst (motion_save empty_disk "a" m1) in
  motion_load d "a.motion" = Ok m1 /\ motion_load (interrupted 1 d (dump_steps "a.motion" (FMotion m2))) "a.motion" = Err EOFError.
Proof. intros. split; reflexivity. Qed.
Lemma xC78_field : forall ot p eps U, pc_eps_sample p = [mzero; eps] -> pc_U_sample p = [mI; U] -> map_values (pc_map p) = [0; 1] ->
  exists l, In ("Strain Tensor Component xy"%string, DList l) (export_fields ot p) /\ nth_error l 1 = Some (DNum (dot (V3 1 0 0) (mv eps (V3 0 1 0)))).
Proof.
  intros ot p eps U H1 H2 H3. destruct (pC78_fields ot p 1 eps U 1) as (_ & _ & _ & (l & A & B & _) & _); [now rewrite H1|now rewrite H2|now rewrite H3|]. eauto.
Qed.
Lemma rot_matrix_ext A B : (forall v, mv A v = mv B v) -> A = B.
Proof.
  intros H. destruct A as [[a1 a2 a3] [a4 a5 a6] [a7 a8 a9]], B as [[b1 b2 b3] [b4 b5 b6] [b7 b8 b9]].
  pose proof (H (V3 1 0 0)) as X. pose proof (H (V3 0 1 0)) as Y. pose proof (H (V3 0 0 1)) as Z. revert X Y Z. clear. vunf. intros X Y Z.
  assert (P : forall x y z x' y' z', V3 x y z = V3 x' y' z' -> x = x' /\ y = y' /\ z = z') by (intros * E; inversion E; auto).
  apply P in X as (? & ? & ?). apply P in Y as (? & ? & ?). apply P in Z as (? & ? & ?). f_equal; f_equal; lra.
Qed.
(** The exported misorientation of an element turned by the angle th (at most 180 degrees) about any
    axis away from the mean orientation is th in degrees. *)
Lemma pC78_misorientation : forall ot p e U ax th, nth_error (pc_U_sample p) e = Some U -> is_rotation (mean_rotation ot (pc_U_sample p)) ->
  unit ax -> 0 <= th <= PI -> (forall v, mv U v = right_handed_rotation ax th (mv (mean_rotation ot (pc_U_sample p)) v)) ->
  exists l, In ("Misorientation from mean orientation [degrees]"%string, DList l) (export_fields ot p) /\ nth_error l e = Some (DNum (th * (180 / PI))).
Proof.
  intros ot p e U ax th HU HM Ha Hth HR. set (m := mean_rotation ot (pc_U_sample p)) in *.
  eexists. split. { unfold export_fields. cbv zeta. cbn [In]. do 9 right. left. reflexivity. }
  unfold get_misorientations. fold m. rewrite !map_map. rewrite (map_nth_error _ _ _ HU). f_equal. f_equal. unfold degrees. f_equal.
  assert (E : mm U (mT m) = rod_matrix ax th).
  { assert (EU : U = mm (rod_matrix ax th) m). { apply rot_matrix_ext. intros v. rewrite HR. rewrite <- rod_spec by auto. generalize (rod_matrix ax th). clear. intros A. destruct A as [[] [] []], m as [[] [] []], v. vunf. f_equal; ring. }
    rewrite EU. destruct HM as (_ & H2 & _). transitivity (mm (rod_matrix ax th) (mm m (mT m))).
    - generalize (rod_matrix ax th). clear. intros A. destruct A as [[] [] []], m as [[] [] []]. vunf. f_equal; f_equal; ring.
    - rewrite H2. generalize (rod_matrix ax th). clear. intros A. destruct A as [[] [] []]. vunf. f_equal; f_equal; ring. }
  rewrite E. unfold rotation_angle. 
  assert (T : vx (r1 (rod_matrix ax th)) + vy (r2 (rod_matrix ax th)) + vz (r3 (rod_matrix ax th)) = 3 - 2 * (1 - cos th) * normsq ax).
  { unfold rod_matrix, rod_K, rod_K2. generalize (cos th) (sin th). clear. intros. vdes. vunf. cbn. ring. }
  rewrite T. unfold unit in Ha. rewrite <- norm_sq, Ha. replace ((3 - 2 * (1 - cos th) * (1 * 1) - 1) / 2) with (cos th) by field. now apply acos_cos.
Qed.
Lemma xC78_misorientation : exists (ot : orientation_tools) Us U ax th, nth_error Us 1 = Some U /\ is_rotation (mean_rotation ot Us) /\ unit ax /\ 0 <= th <= PI /\
  (forall v, mv U v = right_handed_rotation ax th (mv (mean_rotation ot Us) v)) /\ 0 < th.
Proof.
  assert (P := PI_RGT_0). exists (OTools (fun _ => (0, 0, 0)) (fun _ => mI)), [mI; rod_matrix (V3 0 0 1) (PI / 2)], (rod_matrix (V3 0 0 1) (PI / 2)), (V3 0 0 1), (PI / 2).
  assert (Hu : unit (V3 0 0 1)) by (unfold unit, norm; transitivity (sqrt 1); [f_equal; vunf; lra|apply sqrt_1]).
  split; [reflexivity|]. split; [|split; [exact Hu|split; [lra|split; [|lra]]]].
  - cbn. split; [|split]; vunf; repeat (f_equal; try ring).
  - intros v. cbn [mean_rotation]. rewrite rod_spec by auto. f_equal. vdes. vunf. f_equal; ring.
Qed.
