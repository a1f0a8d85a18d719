(** * C97, continued: render on two tables that agree in the columns it reads. *)
From Verif Require Import Vec MMotion MLaue MMesh MScattering MStrain MBeam MPolycrystal SPolycrystal MDetector SDetector MRender SRender SPassenger.
From Verif Require Import PMesh PPolycrystal PDetector PDetector2 PRender PJoin2 PPass.
From Coq Require Import String.
Open Scope list_scope. Open Scope R_scope.
Local Notation len := List.length.

(** The picture columns by position. *)
Definition kept (d : detector) (j : nat) : bool :=
  (Nat.leb 25 j || existsb (Nat.eqb j) [0; 6; 13; 14; 15; 16; 17; 18; 21; 23]%nat ||
   (Nat.eqb j 5 && d_structure d) || (Nat.eqb j 20 && d_polarization d) || (Nat.eqb j 19 && d_lorentz d))%bool.
Lemma kept_read d j : In j [0; 6; 13; 14; 15; 21; 23; 25; 26; 27; 28; 29]%nat -> kept d j = true.
Proof. cbn. intuition subst; reflexivity. Qed.
Lemma kept_high d j : (25 <= j)%nat -> kept d j = true.
Proof. intros H. unfold kept. apply Nat.leb_le in H. now rewrite H. Qed.
Lemma kept_column d j : kept d j = true -> (j < 25)%nat -> exists s, picture_column d s /\ index_of s column_names = Some j.
Proof.
  intros H L. unfold kept in H. rewrite !orb_true_iff in H. destruct H as [[[[H|H]|H]|H]|H].
  - apply Nat.leb_le in H. lia.
  - cbn in H. rewrite !orb_true_iff, !Nat.eqb_eq in H.
    assert (E : exists s, In s ["grain_index"; "diffraction_times"; "K_out_x"; "K_out_y"; "K_out_z"; "Source_x"; "Source_y"; "Source_z"; "volumes"; "scherrer_fwhm"]%string /\
      index_of s column_names = Some j).
    { repeat (destruct H as [H|H]; [subst j|]); try discriminate;
      (match goal with |- exists s, _ /\ _ = Some ?k => exists (nth k column_names ""%string) end; split; [|reflexivity]; cbn; tauto). }
    destruct E as (s & E1 & E2). exists s. split; auto. left. exact E1.
  - apply andb_true_iff in H as [H1 H2]. apply Nat.eqb_eq in H1. subst j. exists "structure_factors"%string. split; [right; left; auto|reflexivity].
  - apply andb_true_iff in H as [H1 H2]. apply Nat.eqb_eq in H1. subst j. exists "polarization_factors"%string. split; [right; right; left; auto|reflexivity].
  - apply andb_true_iff in H as [H1 H2]. apply Nat.eqb_eq in H1. subst j. exists "lorentz_factors"%string. split; [right; right; right; auto|reflexivity].
Qed.
Lemma column_kept d s : picture_column d s -> exists j, index_of s column_names = Some j /\ kept d j = true /\ (j < 25)%nat.
Proof.
  intros [H|[H|[H|H]]].
  - cbn in H. repeat (destruct H as [<-|H]; [eexists; split; [reflexivity|split; [reflexivity|lia]]|]). contradiction.
  - destruct H as [-> H]. exists 5%nat. split; [reflexivity|]. split; [|lia]. unfold kept. rewrite H. reflexivity.
  - destruct H as [-> H]. exists 20%nat. split; [reflexivity|]. split; [|lia]. unfold kept. rewrite H. reflexivity.
  - destruct H as [-> H]. exists 19%nat. split; [reflexivity|]. split; [|lia]. unfold kept. rewrite H. now rewrite !orb_true_r.
Qed.

Section Two.
Variable d : detector.
Local Notation b := (bl (kept d)).
Lemma nth_of_error (r : list num) j : nth j r NaN = match nth_error r j with Some x => x | None => NaN end.
Proof. revert j. induction r as [|x xs IH]; intros [|j]; cbn; auto. Qed.
Lemma agree_bl r r' : len r = 25%nat -> len r' = 25%nat ->
  (forall s j, picture_column d s -> index_of s column_names = Some j -> nth_error r j = nth_error r' j) -> b r = b r'.
Proof.
  intros L L' H. apply erase_eq; [congruence|]. intros j Hj. cbn in Hj. rewrite !nth_of_error.
  destruct (lt_dec j 25) as [J|J].
  - destruct (kept_column d j Hj J) as (s & Hs & Ei). now rewrite (H s j Hs Ei).
  - rewrite !(proj2 (nth_error_None _ _)) by lia. reflexivity.
Qed.
Lemma row_nvec_bl r j : In j [13; 16]%nat -> row_nvec (b r) j = row_nvec r j.
Proof. intros [<-|[<-|[]]]; unfold row_nvec; cbn [Nat.add]; rewrite !ncol_bl; reflexivity. Qed.
Lemma intensity_bl r : intensity d (b r) = intensity d r.
Proof.
  unfold intensity.
  assert (A : d_structure d = true -> ncol (b r) 5 = ncol r 5) by (intros H; apply ncol_bl; unfold kept; rewrite H; reflexivity).
  assert (B : d_polarization d = true -> ncol (b r) 20 = ncol r 20) by (intros H; apply ncol_bl; unfold kept; rewrite H; reflexivity).
  assert (C : d_lorentz d = true -> ncol (b r) 19 = ncol r 19) by (intros H; apply ncol_bl; unfold kept; rewrite H; now rewrite !orb_true_r).
  destruct (d_structure d), (d_polarization d), (d_lorentz d); rewrite ?A, ?B, ?C; auto.
Qed.
Lemma erase_high (l : list num) : forall i, (25 <= i)%nat -> erase (kept d) i l = l.
Proof. induction l as [|x xs IH]; intros i H; cbn; auto. rewrite kept_high by lia. f_equal. apply IH. lia. Qed.
Lemma extend_bl z frames r : len r = 25%nat -> extend z d frames (b r) = b (extend z d frames r).
Proof.
  intros L. rewrite !extend_eq by (unfold bl; rewrite ?erase_len; lia).
  rewrite !row_nvec_bl by (cbn; tauto). rewrite intensity_bl, ncol_bl by reflexivity.
  destruct (get_intersection _ _ _ _) as [[zd yd] a]. unfold bl. rewrite erase_app. cbn [Nat.add]. rewrite (erase_high [_; _; _; _; _]) by lia. reflexivity.
Qed.
Lemma keepb_bl z frames r : len r = 25%nat -> keepb z d frames (b r) = keepb z d frames r.
Proof.
  intros L. destruct (get_intersection z d (row_nvec r 13) (row_nvec r 16)) as [[zd yd] a] eqn:E.
  rewrite (keepb_fresh z d frames r zd yd a L E).
  rewrite (keepb_fresh z d frames (b r) zd yd a); [now rewrite intensity_bl|unfold bl; now rewrite erase_len|].
  now rewrite !row_nvec_bl by (cbn; tauto).
Qed.
Lemma pipeline_bl z frames rows : Forall (fun r => len r = 25%nat) rows ->
  map (extend z d frames) (filter (keepb z d frames) (map b rows)) = map b (map (extend z d frames) (filter (keepb z d frames) rows)).
Proof.
  intros F. rewrite PPass.filter_map, !map_map.
  induction rows as [|r rs IH]; cbn [filter map]; auto. inversion F; subst. rewrite keepb_bl by assumption.
  destruct (keepb z d frames r); cbn [map]; rewrite IH by assumption; auto. f_equal. now apply extend_bl.
Qed.
Lemma project_bl z frames pd pd' : fresh pd -> fresh pd' -> agree_on (picture_column d) pd pd' ->
  exists out out', project z d pd frames = Ok out /\ project z d pd' frames = Ok out' /\ map b (pd_peaks out) = map b (pd_peaks out') /\
    pd_columns out = column_names ++ new_columns /\ pd_columns out' = column_names ++ new_columns /\
    Forall (fun r => len r = 30%nat) (pd_peaks out) /\ Forall (fun r => len r = 30%nat) (pd_peaks out') /\
    pd_mesh out = pd_mesh pd /\ pd_motion out = pd_motion pd /\ pd_beam out = pd_beam pd /\
    pd_mesh out' = pd_mesh pd' /\ pd_motion out' = pd_motion pd' /\ pd_beam out' = pd_beam pd'.
Proof.
  intros [C F] [C' F'] A.
  destruct (project_ok z d pd frames) as (out & P); [eapply Forall_impl; [|exact F]; cbn; intros; lia|].
  destruct (project_ok z d pd' frames) as (out' & P'); [eapply Forall_impl; [|exact F']; cbn; intros; lia|].
  exists out, out'. split; auto. split; auto.
  destruct (project_inv _ _ _ _ _ P) as (R & Cl & _ & _ & _ & M1 & M2 & M3).
  destruct (project_inv _ _ _ _ _ P') as (R' & Cl' & _ & _ & _ & M1' & M2' & M3').
  assert (E : map b (pd_peaks pd) = map b (pd_peaks pd')).
  { unfold agree_on in A. revert F F' A. generalize (pd_peaks pd) (pd_peaks pd'). intros l l' F F' A.
    induction A as [|r r' l l' H A IH]; auto. inversion F; subst. inversion F'; subst. cbn. f_equal; auto.
    apply agree_bl; auto. intros s j Hs Ei. specialize (H s Hs). unfold field in H. rewrite C, C', Ei in H. exact H. }
  assert (N : forall p, Forall (fun r => len r = 25%nat) (pd_peaks p) -> Forall (fun r => len r = 30%nat) (map (extend z d frames) (filter (keepb z d frames) (pd_peaks p)))).
  { intros p Fp. apply Forall_forall. intros x Hx. apply in_map_iff in Hx as (r & <- & Hr). apply filter_In in Hr as [Hr _].
    rewrite Forall_forall in Fp. specialize (Fp r Hr). rewrite extend_eq by lia. destruct (get_intersection _ _ _ _) as [[zd yd] a].
    rewrite app_length, Fp. reflexivity. }
  split; [|rewrite R, R', Cl, Cl', C, C'; repeat split; auto].
  rewrite R, R', <- !pipeline_bl by assumption. now rewrite E.
Qed.
End Two.

Lemma index_of_app s l l' : forall j, index_of s l = Some j -> index_of s (l ++ l') = Some j.
Proof.
  induction l as [|x xs IH]; intros j H; [discriminate|]. cbn [index_of app] in *. destruct (String.eqb s x); auto.
  destruct (index_of s xs) as [k|]; [|discriminate]. now rewrite (IH k eq_refl).
Qed.
Lemma render_of_out e d pd pd' frames method ml mi out out' :
  project (re_z e) d pd (if (frames <? 1)%Z then 1%Z else frames) = Ok out ->
  project (re_z e) d pd' (if (frames <? 1)%Z then 1%Z else frames) = Ok out' ->
  map (bl (kept d)) (pd_peaks out) = map (bl (kept d)) (pd_peaks out') ->
  pd_mesh out = pd_mesh out' -> pd_motion out = pd_motion out' -> b_halfspaces (pd_beam out) = b_halfspaces (pd_beam out') ->
  match render e d pd frames method ml mi, render e d pd' frames method ml mi with
  | Ok (im, o), Ok (im', o') => im = im' /\ o = out /\ o' = out'
  | Err x, Err x' => x = x'
  | _, _ => False
  end.
Proof.
  intros P P' E M1 M2 M3. unfold render. rewrite P, P'. cbn [bind].
  set (n := Z.to_nat _).
  assert (GM : forall sel, (forall r, sel (bl (kept d) r) = sel r) ->
    map (bl (kept d)) (filter sel (pd_peaks out)) = map (bl (kept d)) (filter sel (pd_peaks out'))).
  { intros sel S.
    assert (Q : forall l, map (bl (kept d)) (filter sel l) = filter sel (map (bl (kept d)) l)).
    { intros l. rewrite PPass.filter_map. f_equal. apply filter_same. intros x. symmetry. apply S. }
    now rewrite !Q, E. }
  pose proof (kept_read d) as KR.
  assert (MA : forall l l', map (bl (kept d)) l = map (bl (kept d)) l' -> macro_method e d out l n = macro_method e d out' l' n).
  { intros l l' EL. unfold macro_method. rewrite (macro_beam _ _ _ _ _ _ _ _ M3), M1, M2.
    rewrite <- (render_macro_bl _ KR e d (pd_beam out') (pd_mesh out') (pd_motion out') l), <- (render_macro_bl _ KR e d (pd_beam out') (pd_mesh out') (pd_motion out') l').
    now rewrite EL. }
  assert (MI : forall l l', map (bl (kept d)) l = map (bl (kept d)) l' -> micro_method e d l n = micro_method e d l' n).
  { intros l l' EL. unfold micro_method. rewrite <- (render_gauss_bl _ KR d _ l), <- (render_gauss_bl _ KR d _ l'). now rewrite EL. }
  assert (NA : forall l l', map (bl (kept d)) l = map (bl (kept d)) l' -> nano_method e d l n = nano_method e d l' n).
  { intros l l' EL. unfold nano_method. rewrite <- (render_airy_bl _ KR _ _ _ d _ l), <- (render_airy_bl _ KR _ _ _ d _ l'). now rewrite EL. }
  assert (LA : forall x r, large x (bl (kept d) r) = large x r) by (intros; now apply large_bl).
  assert (SM : forall x r, MRender.small x (bl (kept d) r) = MRender.small x r) by (intros; now apply small_bl).
  set (mac := match ml with Some x => x | None => default_macro_limit d end).
  pose (F := fun o : peaks_dict =>
    if String.eqb method "macro" then macro_method e d o (pd_peaks o) n
    else if String.eqb method "micro" then micro_method e d (pd_peaks o) n
    else if String.eqb method "nano" then nano_method e d (pd_peaks o) n
    else if String.eqb method "auto" then
      let* ma := macro_method e d o (filter (large mac) (pd_peaks o)) n in
      let* mi' := micro_method e d (filter (medium mac mi) (pd_peaks o)) n in
      let* na := nano_method e d (filter (MRender.small mi) (pd_peaks o)) n in
      Ok (add3 (add3 (add3 (zeros3 n (d_nz d) (d_ny d)) na) ma) mi')
    else Err ValueError).
  change (match bind (F out) (fun im => Ok (im, out)), bind (F out') (fun im => Ok (im, out')) with
    | Ok (im, o), Ok (im', o') => im = im' /\ o = out /\ o' = out'
    | Err x, Err x' => x = x'
    | _, _ => False
    end).
  assert (AC : F out = F out').
  { unfold F. destruct (String.eqb method "macro"); [now apply MA|]. destruct (String.eqb method "micro"); [now apply MI|].
    destruct (String.eqb method "nano"); [now apply NA|]. destruct (String.eqb method "auto"); [|reflexivity].
    rewrite (MA _ _ (GM (large mac) (LA mac))).
    rewrite (MI _ _ (GM (medium mac mi) (fun r => ltac:(unfold medium; rewrite LA, SM; reflexivity)))).
    rewrite (NA _ _ (GM (MRender.small mi) (SM mi))). reflexivity. }
  rewrite AC. destruct (F out'); cbn [bind]; auto.
Qed.

(** Tables that agree in the picture columns, over the same sample surface, motion and lit region,
    give the same picture or the same failure, with every method; the recorded tables agree too. *)
Lemma pC97_picture_columns : forall e d pd pd' frames method ml mi,
  fresh pd -> fresh pd' -> same_scene pd pd' -> agree_on (picture_column d) pd pd' ->
  match render e d pd frames method ml mi, render e d pd' frames method ml mi with
  | Ok (im, out), Ok (im', out') => im = im' /\ agree_on (fun s => picture_column d s \/ added_column s) out out'
  | Err x, Err x' => x = x'
  | _, _ => False
  end.
Proof.
  intros e d pd pd' frames method ml mi F F' (S1 & S2 & S3) A.
  destruct (project_bl d (re_z e) (if (frames <? 1)%Z then 1%Z else frames) pd pd' F F' A) as (out & out' & P & P' & E & C & C' & L & L' & M1 & M2 & M3 & M1' & M2' & M3').
  pose proof (render_of_out e d pd pd' frames method ml mi out out' P P' E) as H.
  specialize (H ltac:(congruence) ltac:(congruence) ltac:(congruence)).
  destruct (render e d pd frames method ml mi) as [[im o]|x], (render e d pd' frames method ml mi) as [[im' o']|x']; auto.
  destruct H as (-> & -> & ->). split; auto. unfold agree_on.
  revert E L L'. generalize (pd_peaks out) (pd_peaks out'). intros l.
  induction l as [|r rs IH]; intros [|r' rs'] E L L'; try discriminate; constructor.
  - inversion L; subst. inversion L'; subst. cbn in E. assert (E1 : bl (kept d) r = bl (kept d) r') by congruence.
    assert (R : forall j, kept d j = true -> nth_error r j = nth_error r' j).
    { intros j Hj. destruct (lt_dec j 30) as [J|J].
      - assert (N1 : ncol r j = ncol r' j) by (rewrite <- (ncol_bl (kept d) r j Hj), <- (ncol_bl (kept d) r' j Hj); now rewrite E1).
        unfold ncol in N1. rewrite (nth_error_nth' r NaN) by lia. rewrite (nth_error_nth' r' NaN) by lia. now rewrite N1.
      - rewrite !(proj2 (nth_error_None _ _)) by lia. reflexivity. }
    intros s [Hs|Hs]; unfold field; rewrite C, C'.
    + destruct (column_kept d s Hs) as (j & Ej & Hj & _).
      assert (EJ : index_of s (column_names ++ new_columns) = Some j).
      { now apply index_of_app. }
      rewrite EJ. auto.
    + assert (EJ : exists j, index_of s (column_names ++ new_columns) = Some j /\ (25 <= j)%nat).
      { unfold added_column in Hs. cbn in Hs. repeat (destruct Hs as [<-|Hs]; [eexists; split; [reflexivity|lia]|]). contradiction. }
      destruct EJ as (j & EJ & J). rewrite EJ. apply R. now apply kept_high.
  - inversion L; subst. inversion L'; subst. apply IH; auto. cbn in E. congruence.
Qed.
