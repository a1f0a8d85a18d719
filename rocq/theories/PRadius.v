(** * What verbose rendering says about the window of Airy discs (C85). *)
From Verif Require Import Vec MMotion MLaue MMesh MScattering MStrain MBeam MPolycrystal SPolycrystal MDetector MClip MRender SRender MVerbose SVerbose SNano.
From Verif Require Import PDetector PDetector2 PDetector4 PRender PNano PKernel PExtra PVerbose SDetector SRadius.
From Coq Require Import Permutation.
Open Scope list_scope. Open Scope R_scope.
Local Notation len := List.length.

Lemma fold_max_fin l : forall x, exists m, fold_left nmax (map Fin l) (Fin x) = Fin m /\ In m (x :: l) /\ forall y, In y (x :: l) -> y <= m.
Proof.
  induction l as [|a l IH]; intros x; cbn [map fold_left].
  - exists x. split; [reflexivity|]. split; [now left|]. intros y [<-|[]]; lra.
  - cbn [nmax nlt]. destruct (Rltb x a) eqn:E; unfold Rltb in E; destruct (Rlt_dec x a); try discriminate.
    + destruct (IH a) as (m & H1 & H2 & H3). exists m. split; [exact H1|]. split; [destruct H2; [right; now left|right; now right]|]. intros y [<-|Hy]; [|now apply H3]. specialize (H3 a (or_introl eq_refl)). lra.
    + destruct (IH x) as (m & H1 & H2 & H3). exists m. split; [exact H1|]. split; [destruct H2; [now left|right; now right]|]. intros y [<-|[<-|Hy]]; [apply H3; now left| |apply H3; now right]. specialize (H3 x (or_introl eq_refl)). lra.
Qed.
Lemma tail_gexp d r : 0 < r -> gexp (d_sigma d) (r^2) = Fin (spread_tail d r).
Proof.
  intros H. unfold gexp, spread_tail. destruct (Req_EM_T (d_sigma d) 0); [|reflexivity]. destruct (Req_EM_T (r^2) 0) as [E|E]; [|reflexivity]. assert (0 < r^2) by (apply pow_lt; lra). lra.
Qed.
Lemma wanted_ok z d pd b : (forall r, In r b -> first_zero z d r = Fin (disc_radius d pd r)) -> b <> [] ->
  exists f R, broadest d pd b f /\ asks_for d f R /\ radius_note true z d b = if Rlt_dec 128 R then [RadiusLimited (Fin R)] else [].
Proof.
  intros HF HN. assert (EM : map (first_zero z d) b = map Fin (map (disc_radius d pd) b)) by (rewrite map_map; now apply map_ext_in).
  destruct b as [|r0 b]; [contradiction|]. destruct (fold_max_fin (map (disc_radius d pd) b) (disc_radius d pd r0)) as (f & E & I & U).
  assert (B8 : 8 <= Rmax (4 * f) 8) by apply Rmax_r. destruct (airy_loop_spec (d_sigma d) (d_threshold d / 2) 6 (Rmax (4 * f) 8)) as (k & S); [exact B8|cbn; lra|]. cbv zeta in S. destruct S as (S1 & S2 & S3).
  set (R := airy_radius_loop (d_sigma d) (d_threshold d / 2) (Rmax (4 * f) 8) 6) in *.
  assert (P2 : forall i : nat, 0 < Rmax (4 * f) 8 * 2^i) by (intros i; apply Rmult_lt_0_compat; [lra|apply pow_lt; lra]).
  exists f, R. split; [|split].
  - split; [|intros r Hr; apply U; change (In (disc_radius d pd r) (map (disc_radius d pd) (r0 :: b))); now apply in_map].
    change (In f (map (disc_radius d pd) (r0 :: b))) in I. apply in_map_iff in I as (r & Hr & Hin). now exists r.
  - exists k. split; [exact S1|]. split.
    + destruct S2 as [S2|S2]; [now left|]. right. rewrite tail_gexp in S2 by (rewrite S1; apply P2). cbn [nlt] in S2. unfold Rltb in S2. destruct (Rlt_dec (spread_tail d R) (d_threshold d / 2)); [assumption|discriminate].
    + intros i Hi. destruct (S3 i Hi) as (A & B). split; [exact A|]. rewrite tail_gexp in B by apply P2. cbn [nlt] in B. unfold Rltb in B. destruct (Rlt_dec _ _); [discriminate|lra].
  - unfold radius_note. cbv zeta. rewrite EM. cbn [map nmax_list]. rewrite E. unfold airy_wanted. fold R. cbn [andb nlt]. unfold Rltb. destruct (Rlt_dec 128 R); reflexivity.
Qed.
Lemma a_io_batches z j1 d pd psf fr n bs : (forall b r, In b bs -> In r b -> first_zero z d r = Fin (disc_radius d pd r)) -> Forall (fun b => b <> []) bs -> exists Rs,
  Forall2 (fun b r => exists f, broadest d pd b f /\ asks_for d f r) bs Rs /\
  forall k s im im', (forall j b, (j < k + len bs)%nat -> In b bs -> (String.length ("[Nano] Batch " ++ str (j + 1) ++ ", n=" ++ str (len b)) <= 55)%nat) ->
  airy_loop z j1 d psf fr im bs = Ok im' -> batch_log k bs Rs (filter about_batches (fst (airy_loop_io true z j1 d psf fr n k s im bs))).
Proof.
  intros HF HN. induction HN as [|b bs Hb HN IH].
  - exists []. split; [constructor|]. intros. reflexivity.
  - destruct IH as (Rs & F & L); [intros b' r Hb' Hr; apply (HF b'); [now right|exact Hr]|].
    destruct (wanted_ok z d pd b) as (f & R & HB & HA & EN); [intros r Hr; apply (HF b); [now left|exact Hr]|exact Hb|].
    exists (R :: Rs). split; [constructor; [now exists f|exact F]|]. intros k s im im' H HI. cbn [airy_loop_io airy_loop] in *.
    destruct (airy_batch _ _ _ _ _ _ _) as [im1|] eqn:E; cbn [bind] in HI; [|discriminate].
    rewrite (fst_then _ _ im1) by reflexivity. cbn [fst]. rewrite EN, filter_app.
    unfold progress at 1. unfold print_progress at 1. replace (Nat.leb _ 55) with true by (symmetry; apply Nat.leb_le; apply H; [cbn; lia|now left]).
    rewrite (fst_then _ _ tt) by reflexivity. cbn [fst]. rewrite filter_app. cbn [batch_log].
    do 3 eexists. eexists. split; [|apply (L (k + 1)%nat (s + len b)%nat im1 im'); [intros j b' Hj Hb'; apply H; [cbn; lia|now right]|exact HI]].
    f_equal; [destruct (Rlt_dec 128 R); reflexivity|reflexivity].
Qed.
Lemma nano_batches e d pd rows fr im : (forall r, In r rows -> first_zero (re_z e) d r = Fin (disc_radius d pd r)) ->
  permutes (re_argsort e) -> INR (len rows) < 10^18 -> nano_method e d rows fr = Ok im ->
  radius_reports d pd rows (filter about_batches (fst (nano_io true e d rows fr))).
Proof.
  intros HF Hp H. unfold nano_io, nano_method, render_airy. cbv zeta. destruct rows as [|r rows'].
  { intros _. exists [], []. split; [constructor|]. split; [constructor|]. reflexivity. }
  set (rows := r :: rows') in *.
  destruct (psf_kernel d) as [psf|]; cbn [bind]; [|discriminate].
  destruct (gather rows _) as [sorted|] eqn:Eg; cbn [bind]; [|discriminate].
  apply gather_perm in Eg; [|eapply Permutation_trans; [apply Hp|]; now rewrite map_length].
  destruct (pC41_terminates _ (airy_memory (re_z e) d) (re_free_nano e * 1024^3) sorted) as (bs & Eb & Ec & Fb & Lb). rewrite Eb.
  destruct (airy_loop _ _ _ _ _ _ _) as [raw|] eqn:El; cbn [bind]; [|discriminate]. intros _.
  destruct (a_io_batches (re_z e) (re_j1 e) d pd psf fr (len rows) bs) as (Rs & F & L); [|exact Fb|].
  { intros b q Hb Hq. apply HF. apply (Permutation_in _ Eg). rewrite <- Ec. apply in_concat. now exists b. }
  exists bs, Rs. split; [now rewrite Ec|]. split; [exact F|].
  apply Permutation_length in Eg. rewrite (fst_then _ _ psf) by reflexivity. cbn [done fst app].
  rewrite (fst_then _ _ sorted) by reflexivity. cbn [done fst app].
  assert (FIT : forall j b, (j < 0 + len bs)%nat -> In b bs -> (String.length ("[Nano] Batch " ++ str (j + 1) ++ ", n=" ++ str (len b)) <= 55)%nat).
  { intros j b Hj Hb. apply (nano_fit (len rows)); auto; [|lia]. pose proof (batch_len_le _ _ Hb) as B. rewrite Ec in B. lia. }
  rewrite Eb. rewrite (fst_then _ _ raw).
  - cbn [fst]. rewrite app_nil_r. eapply L; [exact FIT|exact El].
  - rewrite a_io_snd; auto. intros j b Hj Hb. right. now apply FIT.
Qed.
Lemma note_batches v f : filter about_batches (note v f) = [].
Proof. unfold note. destruct (_ && _)%bool; reflexivity. Qed.
Lemma warning_batches v z d pd fr : filter about_batches (fst (project_io v z d pd fr)) = [].
Proof. unfold project_io. cbn [fst]. destruct (_ && _)%bool; reflexivity. Qed.
Lemma io_batches arg entry e d pd frames method mac mic im out : snd (render_io arg entry e d pd frames method mac mic) = Ok (im, out) ->
  filter about_batches (fst (render_io arg entry e d pd frames method mac mic)) =
  filter about_batches (fst (body (resolve arg entry) e d out (Z.to_nat (clampf frames)) method mac mic)).
Proof. intros H. apply io_body in H as (_ & _ & ->). now rewrite !filter_app, note_batches, warning_batches. Qed.
Lemma out_zero e d pd frames out : fresh pd -> 0 < d_pz d -> project (re_z e) d pd (clampf frames) = Ok out ->
  (forall r, In r (pd_peaks out) -> proper_disc out r) -> forall r, In r (pd_peaks out) -> first_zero (re_z e) d r = Fin (disc_radius d out r).
Proof.
  intros Hf Pz Ho Hd r Hr. apply first_zero_val; auto; [|eapply out_columns; eauto].
  destruct (projected_prow _ _ _ _ _ _ Hf (clampf_pos frames) Ho Hr) as (k & zd & yd & i & P). apply (pr_len _ _ _ _ _ _ _ P).
Qed.
(** C85. The line about a limited window appears for exactly the batches that want more than 128 pixels, with the wanted radius,
    just before the bar of the batch. *)
Lemma pC85_radius_note : forall arg entry e d pd frames macro_limit micro_limit im out,
  permutes (re_argsort e) -> fresh pd -> 0 < d_pz d -> resolve arg entry = true -> INR (List.length (pd_peaks pd)) < 10^18 ->
  snd (render_io arg entry e d pd frames "nano" macro_limit micro_limit) = Ok (im, out) ->
  (forall r, In r (pd_peaks out) -> proper_disc out r) ->
  radius_reports d out (pd_peaks out) (filter about_batches (fst (render_io arg entry e d pd frames "nano" macro_limit micro_limit))).
Proof.
  intros arg entry e d pd frames mac mic im out Hp Hf Pz Hv HN H Hd. pose proof (io_batches _ _ _ _ _ _ _ _ _ _ _ H) as B. pose proof (io_body _ _ _ _ _ _ _ _ _ _ _ H) as (Ho & Hb & _).
  rewrite Hv in *. unfold body in *. cbn [String.eqb Ascii.eqb Bool.eqb] in *. pose proof (proj2 (out_small _ _ _ _ _ Ho HN (fun _ => true))) as S.
  rewrite nano_snd in Hb by auto. rewrite B. eapply nano_batches; eauto. eapply out_zero; eauto.
Qed.
Lemma g_io_radius v d n nb bs : forall k s im, Forall (fun o => is_radius o = false) (fst (g_loop_io v d n nb k s im bs)).
Proof.
  induction bs as [|b bs IH]; intros k s im; cbn [g_loop_io]; [constructor|]. unfold and_then at 1.
  assert (P : forall f m, Forall (fun o => is_radius o = false) (fst (progress v f m))) by (intros f m; unfold progress, print_progress; destruct v; [destruct (Nat.leb _ _)|]; cbn; repeat constructor).
  destruct (snd (progress v _ _)); [|apply P]. cbn [fst]. apply Forall_app. split; [apply P|]. unfold and_then. cbn [done snd fst]. destruct (index_put _ _); cbn [fst app]; [apply IH|constructor].
Qed.
Lemma macro_radius v e d b me m n l : forall k, Forall (fun o => is_radius o = false) (fst (macro_bars v e d b me m n k l)).
Proof.
  induction l as [|r l IH]; intros k; cbn [macro_bars]; [constructor|]. unfold and_then at 1.
  assert (P : forall f q, Forall (fun o => is_radius o = false) (fst (progress v f q))) by (intros f q; unfold progress, print_progress; destruct v; [destruct (Nat.leb _ _)|]; cbn; repeat constructor).
  destruct (snd (progress v _ _)); [|apply P]. cbn [fst]. apply Forall_app. split; [apply P|]. unfold and_then. cbn [done snd fst]. destruct (macro_deposits _ _ _ _ _ _ _); cbn [fst app]; [apply IH|constructor].
Qed.
Lemma no_radius l : Forall (fun o => is_radius o = false) l -> filter about_batches l = filter is_bar l /\ filter is_radius l = [].
Proof. induction 1 as [|o l H _ (IH1 & IH2)]; [auto|]. cbn [filter]. unfold about_batches at 1. rewrite H, orb_false_r, IH1, IH2. destruct (is_bar o); auto. Qed.
(** C85. The other two methods never print it; 'auto' prints it for its 'nano' peaks only. *)
Lemma pC85_radius_only_nano : forall arg entry e d pd frames macro_limit micro_limit,
  (forall o, In o (fst (render_io arg entry e d pd frames "macro" macro_limit micro_limit)) -> is_radius o = false) /\
  (forall o, In o (fst (render_io arg entry e d pd frames "micro" macro_limit micro_limit)) -> is_radius o = false).
Proof.
  intros arg entry e d pd frames mac mic. assert (N : forall v f, Forall (fun o => is_radius o = false) (note v f)) by (intros; unfold note; destruct (_ && _)%bool; repeat constructor).
  assert (W : forall v z pd fr, Forall (fun o => is_radius o = false) (fst (project_io v z d pd fr))) by (intros; unfold project_io; cbn [fst]; destruct (_ && _)%bool; repeat constructor).
  assert (C : forall A B (x : logged A) (k : A -> logged B), Forall (fun o => is_radius o = false) (fst x) -> (forall a, Forall (fun o => is_radius o = false) (fst (k a))) -> Forall (fun o => is_radius o = false) (fst (and_then x k))).
  { intros A B x k H1 H2. unfold and_then. destruct (snd x); [|exact H1]. cbn [fst]. apply Forall_app. auto. }
  split; apply Forall_forall; unfold render_io; cbv zeta; apply C; try apply N; intros _; apply C; try apply W; intros o; cbn [String.eqb Ascii.eqb Bool.eqb]; apply C; try (intros; constructor).
  - unfold macro_io. cbn [fst]. apply macro_radius.
  - unfold micro_io. apply g_io_radius.
Qed.
Lemma pC85_auto_radius : forall arg entry e d pd frames macro_limit micro_limit im out,
  permutes (re_argsort e) -> fresh pd -> 0 < d_pz d -> resolve arg entry = true -> INR (List.length (pd_peaks pd)) < 10^18 ->
  snd (render_io arg entry e d pd frames "auto" macro_limit micro_limit) = Ok (im, out) ->
  (forall r, In r (pd_peaks out) -> proper_disc out r) ->
  exists bars rest, filter about_batches (fst (render_io arg entry e d pd frames "auto" macro_limit micro_limit)) = (bars ++ rest)%list /\
    Forall (fun o => is_bar o = true) bars /\
    radius_reports d out (filter (fun r => nlt (ncol r 21) (Fin micro_limit)) (pd_peaks out)) rest.
Proof.
  intros arg entry e d pd frames mac mic im out Hp Hf Pz Hv HN H Hd. pose proof (io_batches _ _ _ _ _ _ _ _ _ _ _ H) as B. pose proof (io_body _ _ _ _ _ _ _ _ _ _ _ H) as (Ho & Hb & _).
  rewrite Hv in *. unfold body in *. cbn [String.eqb Ascii.eqb Bool.eqb] in *. cbv zeta in *. set (m := match mac with Some x => x | None => _ end) in *.
  pose proof (fun f => proj1 (out_small _ _ _ _ _ Ho HN f)) as S. set (n := Z.to_nat (clampf frames)) in *.
  rewrite snd_then, macro_snd in Hb by auto. destruct (macro_method _ _ _ _ _) as [ma|] eqn:E1; cbn [bind] in Hb; [|discriminate].
  rewrite snd_then, micro_snd in Hb by auto. destruct (micro_method _ _ _ _) as [mi|] eqn:E2; cbn [bind] in Hb; [|discriminate].
  rewrite snd_then, nano_snd in Hb by auto. destruct (nano_method _ _ _ _) as [na|] eqn:E3; cbn [bind] in Hb; [|discriminate].
  rewrite B. rewrite (fst_then _ _ ma) by (rewrite macro_snd by auto; exact E1). rewrite (fst_then _ _ mi) by (rewrite micro_snd by auto; exact E2). rewrite (fst_then _ _ na) by (rewrite nano_snd by auto; exact E3).
  cbn [done fst]. rewrite app_nil_r, !filter_app, app_assoc. eexists. eexists. split; [reflexivity|]. split.
  - rewrite !(fun l h => proj1 (no_radius l h)); [|apply g_io_radius|apply macro_radius]. apply Forall_app. split; apply Forall_forall; intros o Ho'; now apply filter_In in Ho'.
  - change (fun r => nlt (ncol r 21) (Fin mic)) with (small mic). eapply nano_batches; eauto. intros r Hr. apply filter_In in Hr as (Hr & _). eapply out_zero; eauto.
Qed.
