(** * Saving and loading (C63, C64, C69, C77, C78). *)
From Verif Require Import Vec Spec MMotion MLaue MMesh MScattering MStrain MBeam SBeam MPolycrystal SPolycrystal MDetector MPersist SPersist.
From Verif Require Import PMesh PBeam PPolycrystal.
From Coq Require Import String Ascii.
Open Scope R_scope.
Local Notation len := List.length.

(** ** Strings *)
Lemma append_length a b : String.length (a ++ b) = (String.length a + String.length b)%nat.
Proof. induction a; cbn [append String.length]; auto. rewrite IHa. reflexivity. Qed.
Lemma append_assoc a b c : ((a ++ b) ++ c)%string = (a ++ b ++ c)%string.
Proof. induction a; cbn [append]; congruence. Qed.
Lemma append_nil_r a : (a ++ "")%string = a. Proof. induction a; cbn [append]; congruence. Qed.
Lemma substring_all s : substring 0 (String.length s) s = s.
Proof. induction s; cbn [substring String.length]; congruence. Qed.
Lemma substring_app a b : substring (String.length a) (String.length b) (a ++ b) = b.
Proof. induction a; cbn [append String.length substring]; auto. apply substring_all. Qed.
Lemma substring_tail n s : (n <= String.length s)%nat -> exists a, s = (a ++ substring n (String.length s - n) s)%string.
Proof.
  revert n. induction s as [|c s IH]; intros [|n] H; cbn [String.length] in *.
  - exists ""%string. reflexivity.
  - lia.
  - exists ""%string. cbn [append]. rewrite Nat.sub_0_r. symmetry. exact (substring_all (String c s)).
  - destruct (IH n) as (a & E); [lia|]. exists (String c a). cbn [append Nat.sub substring]. now rewrite <- E.
Qed.
Lemma ends_with_spec s ext : ends_with s ext = true <-> has_suffix s ext.
Proof.
  unfold ends_with, has_suffix. rewrite andb_true_iff, Nat.leb_le, String.eqb_eq. split.
  - intros [L E]. destruct (substring_tail (String.length s - String.length ext) s) as (a & A); [lia|]. exists a. rewrite A at 1. f_equal. rewrite <- E at 3. f_equal. lia.
  - intros (a & ->). rewrite append_length. split; [lia|]. replace (String.length a + String.length ext - String.length ext)%nat with (String.length a) by lia. apply substring_app.
Qed.
Lemma ends_with_false s ext : ends_with s ext = false <-> ~ has_suffix s ext.
Proof. rewrite <- ends_with_spec. destruct (ends_with s ext); split; congruence. Qed.
Lemma with_ext_suffix ext path : has_suffix (with_ext ext path) ext.
Proof. unfold with_ext. destruct (ends_with path ext) eqn:E; [now apply ends_with_spec|]. now exists path. Qed.
Lemma ends_with_ext ext path : ends_with (with_ext ext path) ext = true. Proof. apply ends_with_spec, with_ext_suffix. Qed.
Lemma with_ext_spec ext path : saved_under ext path (with_ext ext path).
Proof. unfold saved_under, with_ext. destruct (ends_with path ext) eqn:E; [left|right]; split; auto; [now apply ends_with_spec|now apply ends_with_false]. Qed.
Fixpoint last_char (s : string) (c : ascii) : ascii := match s with EmptyString => c | String a r => last_char r a end.
Lemma last_append a : forall b c, last_char (a ++ b) c = last_char b (last_char a c).
Proof. induction a; intros b c; cbn [append last_char]; auto. Qed.
Lemma suffix_last s ext c a r : has_suffix s ext -> ext = String a r -> last_char s c = last_char ext c.
Proof. intros (st & ->) ->. rewrite last_append. reflexivity. Qed.
Ltac differ H1 H2 := exfalso;
  let A := fresh in let B := fresh in
  pose proof (suffix_last _ _ "a"%char _ _ H1 eq_refl) as A; pose proof (suffix_last _ _ "a"%char _ _ H2 eq_refl) as B; rewrite A in B; discriminate B.

(** The extension is added exactly once, and adding it again changes nothing. *)
Lemma pC63_names : forall path ext, saved_under ext path (with_ext ext path) /\ has_suffix (with_ext ext path) ext /\ with_ext ext (with_ext ext path) = with_ext ext path.
Proof.
  intros path ext. split; [apply with_ext_spec|]. split; [apply with_ext_suffix|]. unfold with_ext at 1. now rewrite ends_with_ext.
Qed.
(** ** The disk *)
Lemma put_same d p f : contents (put d p f) p = Some f. Proof. cbn. now rewrite String.eqb_refl. Qed.
Lemma put_other d p f q : q <> p -> contents (put d p f) q = contents d q.
Proof. cbn. intros H. destruct (String.eqb_spec q p); [contradiction|auto]. Qed.
Lemma dump_run d p f : openable d p = true -> run_steps d (dump_steps p f) = (put (put d p Incomplete) p f, Ok tt).
Proof. intros H. unfold dump_steps. cbn [run_steps put openable]. now rewrite H. Qed.
Lemma dump_fail d p f : openable d p = false -> run_steps d (dump_steps p f) = (d, Err FileNotFoundError).
Proof. intros H. unfold dump_steps. cbn [run_steps]. now rewrite H. Qed.
Lemma dump_other d p f q : q <> p -> contents (fst (run_steps d (dump_steps p f))) q = contents d q.
Proof.
  intros H. destruct (openable d p) eqn:E; [rewrite dump_run by auto|rewrite dump_fail by auto; auto]. cbn [fst]. rewrite !put_other by auto. auto.
Qed.
Lemma run_openable : forall l d, openable (fst (run_steps d l)) = openable d.
Proof. induction l as [|[p f] l IH]; intros d; cbn [run_steps]; auto. destruct (openable d p); auto. rewrite IH. reflexivity. Qed.
Lemma dump_same d p f : openable d p = true -> contents (fst (run_steps d (dump_steps p f))) p = Some f.
Proof. intros H. rewrite dump_run by auto. apply put_same. Qed.
(** Saving then loading under the saved name returns the object; an existing file is replaced. *)
Lemma pC63_save_load_motion : forall d path m, openable d (with_ext ".motion" path) = true ->
  snd (motion_save d path m) = Ok tt /\ motion_load (fst (motion_save d path m)) (with_ext ".motion" path) = Ok m.
Proof. intros d path m H. unfold motion_save, motion_load, read. rewrite ends_with_ext, dump_same by auto. split; [now rewrite dump_run|reflexivity]. Qed.
Lemma pC63_save_load_detector : forall d path o, openable d (with_ext ".det" path) = true ->
  snd (detector_save d path o) = Ok tt /\ detector_load (fst (detector_save d path o)) (with_ext ".det" path) = Ok o.
Proof. intros d path m H. unfold detector_save, detector_load, read. rewrite ends_with_ext, dump_same by auto. split; [now rewrite dump_run|reflexivity]. Qed.
Lemma pC63_save_load_beam : forall q d path b, reachable_beam q b -> openable d (with_ext ".beam" path) = true ->
  snd (beam_save d path b) = Ok tt /\ beam_load q (fst (beam_save d path b)) (with_ext ".beam" path) = Ok b.
Proof. intros q d path b R H. unfold beam_save, beam_load, read. rewrite ends_with_ext, dump_same by auto. split; [now rewrite dump_run|]. cbn [bind]. now apply pC24_roundtrip. Qed.
Lemma pc_path_fst path : fst (pc_paths path) = with_ext ".pc" path.
Proof. unfold pc_paths, with_ext. destruct (ends_with path ".pc"); reflexivity. Qed.
Lemma xdmf_suffix path : has_suffix (snd (pc_paths path)) ".xdmf".
Proof. unfold pc_paths. destruct (ends_with path ".pc"); cbn [snd]; eexists; reflexivity. Qed.
Lemma mesh_save_other d path me ed q : q <> with_ext ".xdmf" path -> contents (fst (fst (mesh_save d path me ed))) q = contents d q.
Proof.
  intros H. unfold mesh_save, mesh_save_steps. destruct ed as [ed|].
  - destruct (wrap_fields ed) as [ed' [[]|e]]; auto. destruct (forallb _ _); auto. pose proof (dump_other d (with_ext ".xdmf" path) (FXdmf (me_coord me) (me_enod me) ed') q H) as D. destruct (run_steps d _) as [d' r]. exact D.
  - pose proof (dump_other d (with_ext ".xdmf" path) (FXdmf (me_coord me) (me_enod me) []) q H) as D. destruct (run_steps d _) as [d' r]. exact D.
Qed.
Lemma mesh_save_openable d path me ed : openable (fst (fst (mesh_save d path me ed))) = openable d.
Proof.
  unfold mesh_save, mesh_save_steps. destruct ed as [ed|].
  - destruct (wrap_fields ed) as [ed' [[]|e]]; auto. destruct (forallb _ _); auto. pose proof (run_openable (dump_steps (with_ext ".xdmf" path) (FXdmf (me_coord me) (me_enod me) ed')) d) as D. destruct (run_steps d _) as [d' r]. exact D.
  - pose proof (run_openable (dump_steps (with_ext ".xdmf" path) (FXdmf (me_coord me) (me_enod me) [])) d) as D. destruct (run_steps d _) as [d' r]. exact D.
Qed.
Lemma pc_ne_xdmf path path' : with_ext ".pc" path <> with_ext ".xdmf" path'.
Proof. intros E. pose proof (with_ext_suffix ".pc" path) as A. pose proof (with_ext_suffix ".xdmf" path') as B. rewrite <- E in B. differ A B. Qed.
Lemma pc_save_other ot d path x p q : q <> with_ext ".pc" path -> (x = true -> q <> snd (pc_paths path)) -> contents (fst (polycrystal_save ot d path x p)) q = contents d q.
Proof.
  intros H1 H2. unfold polycrystal_save. rewrite <- pc_path_fst in H1. destruct (pc_paths path) as [pp xp] eqn:P. cbn [fst snd] in *. pose proof (dump_other d pp (FPolycrystal p) q H1) as D. destruct (run_steps d _) as [d' [[]|e]]; auto.
  destruct x; auto. specialize (H2 eq_refl). pose proof (mesh_save_other d' xp (pc_mesh_sample p) (Some (export_fields ot p)) q) as M. destruct (mesh_save _ _ _ _) as [[d'' ed] r]. cbn [fst] in *. rewrite M; auto.
  pose proof (xdmf_suffix path) as X. rewrite P in X. cbn [snd] in X. unfold with_ext. apply ends_with_spec in X. now rewrite X.
Qed.
Lemma pc_save_openable ot d path x p : openable (fst (polycrystal_save ot d path x p)) = openable d.
Proof.
  unfold polycrystal_save. destruct (pc_paths path) as [pp xp]. pose proof (run_openable (dump_steps pp (FPolycrystal p)) d) as D. destruct (run_steps d _) as [d' [[]|e]]; auto. destruct x; auto.
  pose proof (mesh_save_openable d' xp (pc_mesh_sample p) (Some (export_fields ot p))) as M. destruct (mesh_save _ _ _ _) as [[d'' ed] r]. cbn [fst] in *. congruence.
Qed.
Lemma pc_save_main ot d path x p : openable d (with_ext ".pc" path) = true -> contents (fst (polycrystal_save ot d path x p)) (with_ext ".pc" path) = Some (FPolycrystal p).
Proof.
  intros H. unfold polycrystal_save. pose proof (pc_path_fst path) as PF. pose proof (xdmf_suffix path) as X. destruct (pc_paths path) as [pp xp] eqn:P. cbn [fst snd] in *. subst pp. rewrite dump_run by auto. destruct x; [|apply put_same].
  pose proof (mesh_save_other (put (put d (with_ext ".pc" path) Incomplete) (with_ext ".pc" path) (FPolycrystal p)) xp (pc_mesh_sample p) (Some (export_fields ot p)) (with_ext ".pc" path) (pc_ne_xdmf _ _)) as M.
  destruct (mesh_save _ _ _ _) as [[d'' ed] r]. cbn [fst] in *. rewrite M. apply put_same.
Qed.
(** The polycrystal comes back with its phase map as a tensor and everything else
    unchanged, whether or not the mesh export succeeds. *)
Lemma pC63_save_load_polycrystal : forall ot d path xdmf p, openable d (with_ext ".pc" path) = true ->
  polycrystal_load (fst (polycrystal_save ot d path xdmf p)) (with_ext ".pc" path) = Ok (reload p).
Proof. intros ot d path x p H. unfold polycrystal_load, read. rewrite ends_with_ext, pc_save_main by auto. reflexivity. Qed.
(** Loading demands the extension, whatever is on disk, and reports a missing file. *)
Lemma pC63_load_refuses : forall q d path,
  (~ has_suffix path ".beam" -> beam_load q d path = Err ValueError) /\ (~ has_suffix path ".motion" -> motion_load d path = Err ValueError) /\
  (~ has_suffix path ".det" -> detector_load d path = Err ValueError) /\ (~ has_suffix path ".pc" -> polycrystal_load d path = Err ValueError).
Proof. intros q d path. unfold beam_load, motion_load, detector_load, polycrystal_load. repeat split; intros H; apply ends_with_false in H; now rewrite H. Qed.
Lemma pC63_load_missing : forall q d path, contents d path = None ->
  (has_suffix path ".beam" -> beam_load q d path = Err FileNotFoundError) /\ (has_suffix path ".motion" -> motion_load d path = Err FileNotFoundError) /\
  (has_suffix path ".det" -> detector_load d path = Err FileNotFoundError) /\ (has_suffix path ".pc" -> polycrystal_load d path = Err FileNotFoundError).
Proof. intros q d path N. unfold beam_load, motion_load, detector_load, polycrystal_load, read. rewrite N. repeat split; intros H; apply ends_with_spec in H; now rewrite H. Qed.

(** ** Sessions *)
Lemma call_openable ot d c : openable (run_call ot d c) = openable d.
Proof. destruct c; cbn [run_call]; try apply run_openable; [apply pc_save_openable|apply mesh_save_openable]. Qed.
Lemma session_openable ot l : forall d, openable (session ot d l) = openable d.
Proof. induction l as [|c l IH]; intros d; cbn [session fold_left]; auto. unfold session in IH. rewrite IH. apply call_openable. Qed.
Lemma call_other ot d c q : q <> main_file c -> ~ has_suffix q ".xdmf" -> contents (run_call ot d c) q = contents d q.
Proof.
  intros H N. destruct c as [path b|path m|path o|path x p|path me]; cbn [run_call main_file] in *; try (apply dump_other; auto).
  - apply pc_save_other; auto. intros _ ->. apply N, xdmf_suffix.
  - apply mesh_save_other. auto.
Qed.
Lemma session_other ot l : forall d q, (forall c, In c l -> q <> main_file c) -> ~ has_suffix q ".xdmf" -> contents (session ot d l) q = contents d q.
Proof.
  induction l as [|c l IH]; intros d q H N; cbn [session fold_left]; auto. unfold session in IH. rewrite IH; [|intros; apply H; now right|auto]. apply call_other; auto. apply H. now left.
Qed.
Lemma call_main ot d c : openable d (main_file c) = true -> (forall path me, c <> SaveMesh path me) -> contents (run_call ot d c) (main_file c) =
  Some (match c with SaveBeam _ b => FBeam (beam_dump b) | SaveMotion _ m => FMotion m | SaveDetector _ o => FDetector o | SavePolycrystal _ _ p => FPolycrystal p | SaveMesh _ _ => Incomplete end).
Proof.
  intros H N. destruct c as [path b|path m|path o|path x p|path me]; cbn [run_call main_file] in *; [apply dump_same; auto|apply dump_same; auto|apply dump_same; auto|apply pc_save_main; auto|exfalso; eapply N; reflexivity].
Qed.
Lemma not_xdmf ext path : ext = ".beam"%string \/ ext = ".motion"%string \/ ext = ".det"%string \/ ext = ".pc"%string -> ~ has_suffix (with_ext ext path) ".xdmf".
Proof. intros E X. pose proof (with_ext_suffix ext path) as A. destruct E as [-> | [-> | [-> | -> ] ] ]; differ A X. Qed.
(** After any session, loading a name returns the object most recently saved under that name;
    objects of different kinds and mesh exports never interfere, whatever their paths. *)
Lemma pC63_history : forall ot q d before after c, openable d (main_file c) = true -> (forall c', In c' after -> main_file c' <> main_file c) ->
  let final := session ot d (before ++ c :: after) in
  match c with
  | SaveBeam path b => reachable_beam q b -> beam_load q final (with_ext ".beam" path) = Ok b
  | SaveMotion path m => motion_load final (with_ext ".motion" path) = Ok m
  | SaveDetector path o => detector_load final (with_ext ".det" path) = Ok o
  | SavePolycrystal path _ p => polycrystal_load final (with_ext ".pc" path) = Ok (reload p)
  | SaveMesh _ _ => True
  end.
Proof.
  intros ot q d before after c H N. cbv zeta.
  assert (E : session ot d (before ++ c :: after) = session ot (run_call ot (session ot d before) c) after) by (unfold session; now rewrite fold_left_app). rewrite E. set (d0 := session ot d before). assert (O : openable d0 = openable d) by apply session_openable.
  assert (K : forall ext path, main_file c = with_ext ext path -> (ext = ".beam" \/ ext = ".motion" \/ ext = ".det" \/ ext = ".pc")%string -> (forall path me, c <> SaveMesh path me) -> contents (session ot (run_call ot d0 c) after) (with_ext ext path) =
    Some (match c with SaveBeam _ b => FBeam (beam_dump b) | SaveMotion _ m => FMotion m | SaveDetector _ o => FDetector o | SavePolycrystal _ _ p => FPolycrystal p | SaveMesh _ _ => Incomplete end)).
  { intros ext path M X S. rewrite session_other; [|intros c' Hc'; rewrite <- M; intros Z; now apply (N c' Hc')|now apply not_xdmf]. rewrite <- M. apply call_main; auto. now rewrite O. }
  destruct c as [path b|path m|path o|path x p|path me]; auto.
  - intros Rb. unfold beam_load, read. rewrite ends_with_ext, (K ".beam"%string path); auto; [|discriminate]. cbn [bind]. now apply pC24_roundtrip.
  - unfold motion_load, read. rewrite ends_with_ext, (K ".motion"%string path); auto; discriminate.
  - unfold detector_load, read. rewrite ends_with_ext, (K ".det"%string path); auto; discriminate.
  - unfold polycrystal_load, read. rewrite ends_with_ext, (K ".pc"%string path); auto; discriminate.
Qed.
(** Names of different kinds differ, so the condition above concerns only saves of the same kind. *)
Lemma pC63_kinds_apart : forall e1 e2 p1 p2, In e1 [".beam"; ".motion"; ".det"; ".pc"; ".xdmf"]%string -> In e2 [".beam"; ".motion"; ".det"; ".pc"; ".xdmf"]%string ->
  e1 <> e2 -> with_ext e1 p1 <> with_ext e2 p2.
Proof.
  intros e1 e2 p1 p2 H1 H2 N E. pose proof (with_ext_suffix e1 p1) as A. pose proof (with_ext_suffix e2 p2) as B. rewrite <- E in B. set (w := with_ext e1 p1) in *. clearbody w.
  cbn [In] in H1, H2. destruct H1 as [<-|[<-|[<-|[<-|[<-|[] ] ] ] ] ]; destruct H2 as [<-|[<-|[<-|[<-|[<-|[] ] ] ] ] ]; try contradiction; differ A B.
Qed.
