(** * Nano rendering: when a picture can be made (C100). *)
From Verif Require Import Vec Spec MMotion MLaue MMesh MScattering MStrain MBeam MPolycrystal SPolycrystal MDetector SDetector.
From Verif Require Import MRender SRender SNano PLaue PScattering PBeam PDetector PDetector2 PDetector3 PDetector4 PRender PRender2 PRender2b PRenderEx PRender3 PKernel PKernel2 PKernel3 PMacro PNano PNanoEx PNano2 PNano3 PNano4 PNano5.
From Coq Require Import Permutation FunctionalExtensionality.
Open Scope R_scope.
Local Notation len := List.length.

Lemma loop_ok z j1 d psf n bs : Forall (fun b => exists ks, airy_kernels z j1 d psf b = Ok ks) bs ->
  forall im, f_n im = n -> f_h im = d_nz d -> f_w im = d_ny d -> exists im', airy_loop z j1 d psf n im bs = Ok im'.
Proof.
  induction 1 as [|b bs (ks & Hk) _ IH]; intros im H1 H2 H3; cbn [airy_loop]; [eauto|].
  rewrite (batch_adds _ _ _ _ _ _ _ _ H1 H2 H3 Hk). cbn [bind]. apply IH; reflexivity.
Qed.
Lemma kernels_err z j1 d psf b e : airy_kernels z j1 d psf b = Err e -> e = RuntimeError.
Proof.
  unfold airy_kernels. destruct (airy_radius d _) as [R|x] eqn:E.
  - cbn [bind]. match goal with |- match ?l with _ => _ end = _ -> _ => destruct l as [|k l'] end; [discriminate|]. match goal with |- (if ?c then _ else _) = _ -> _ => destruct c end; [discriminate|]. congruence.
  - cbn [bind]. unfold airy_radius in E. destruct (nmax_list _); congruence.
Qed.
Lemma loop_err z j1 d psf n bs e : forall im, f_n im = n -> f_h im = d_nz d -> f_w im = d_ny d ->
  airy_loop z j1 d psf n im bs = Err e -> e = RuntimeError.
Proof.
  induction bs as [|b bs IH]; intros im H1 H2 H3; cbn [airy_loop]; [discriminate|].
  destruct (airy_kernels z j1 d psf b) as [ks|x] eqn:Hk.
  - rewrite (batch_adds _ _ _ _ _ _ _ _ H1 H2 H3 Hk). cbn [bind]. apply IH; reflexivity.
  - unfold airy_batch. rewrite Hk. cbn [bind]. intros H. inversion H; subst. now apply kernels_err in Hk.
Qed.
Lemma fresh_project z d pd frames : fresh pd -> exists out, project z d pd frames = Ok out.
Proof. intros [_ H]. apply project_ok. eapply Forall_impl; [|exact H]. cbn. intros; lia. Qed.
(** The only way the method can fail is torch's complaint about tensors that do not fit together. *)
Lemma pC100_only_runtime_error : forall e d pd frames ml mi x, fresh pd -> built d -> permutes (re_argsort e) ->
  render e d pd frames "nano" ml mi = Err x -> x = RuntimeError.
Proof.
  intros e d pd frames ml mi x Hf Hb Hp. unfold render. cbv zeta. fold (nframes frames).
  destruct (fresh_project (re_z e) d pd (nframes frames) Hf) as (out & ->). cbn [bind String.eqb Ascii.eqb Bool.eqb].
  destruct (nano_method _ _ _ _) as [im|y] eqn:E; cbn [bind]; [discriminate|]. intros H. inversion H; subst y. clear H. revert E.
  unfold nano_method, render_airy. destruct (pd_peaks out) as [|r0 rows'] eqn:Er; [discriminate|]. rewrite <- Er. clear r0 rows' Er. set (rows := pd_peaks out).
  destruct (proj2 (pC46_built_has_kernel d Hb)) as (psf & ->). cbn [bind].
  destruct (gather_ok rows (re_argsort e (map (airy_memory (re_z e) d) rows))) as (sorted & -> & _).
  { eapply Permutation_trans; [apply Hp|]. now rewrite map_length. }
  cbn [bind]. destruct (pC41_terminates _ (airy_memory (re_z e) d) (re_free_nano e * 1024^3) sorted) as (bs & -> & _).
  destruct (airy_loop _ _ _ _ _ _ _) as [im|y] eqn:E; cbn [bind]; [discriminate|]. intros H. inversion H; subst y. eapply loop_err; [| | |exact E]; reflexivity.
Qed.
(** The method succeeds when every batch can be stacked. *)
Lemma nano_succeeds e d pd frames ml mi out psf : fresh pd -> permutes (re_argsort e) ->
  project (re_z e) d pd (nframes frames) = Ok out -> psf_kernel d = Ok psf ->
  (forall sorted bs b, Permutation sorted (pd_peaks out) -> airy_batches (airy_memory (re_z e) d) (re_free_nano e * 1024^3) sorted (List.length sorted) = Some bs ->
     In b bs -> b <> [] -> incl b (pd_peaks out) -> exists ks, airy_kernels (re_z e) (re_j1 e) d psf b = Ok ks) ->
  exists im, render e d pd frames "nano" ml mi = Ok (im, out).
Proof.
  intros Hf Hp Ho Hk HB. unfold render. cbv zeta. fold (nframes frames). rewrite Ho. cbn [bind String.eqb Ascii.eqb Bool.eqb].
  assert (G : exists im, nano_method e d (pd_peaks out) (Z.to_nat (nframes frames)) = Ok im); [|destruct G as (im & ->); eexists; reflexivity].
  unfold nano_method, render_airy. destruct (pd_peaks out) as [|r0 rows'] eqn:Er; [eauto|]. rewrite <- Er in *. clear r0 rows' Er. set (rows := pd_peaks out) in *.
  rewrite Hk. cbn [bind].
  destruct (gather_ok rows (re_argsort e (map (airy_memory (re_z e) d) rows))) as (sorted & -> & HPm).
  { eapply Permutation_trans; [apply Hp|]. now rewrite map_length. }
  cbn [bind]. destruct (pC41_terminates _ (airy_memory (re_z e) d) (re_free_nano e * 1024^3) sorted) as (bs & Eb & Ec & Fb & _). rewrite Eb.
  destruct (loop_ok (re_z e) (re_j1 e) d psf (Z.to_nat (nframes frames)) bs) with (im := zeros3 (Z.to_nat (nframes frames)) (d_nz d) (d_ny d)) as (im & ->); try reflexivity; [|cbn [bind]; eauto].
  apply Forall_forall. intros b Hb. rewrite Forall_forall in Fb. eapply HB; eauto.
  intros r Hr. apply (Permutation_in _ HPm). rewrite <- Ec. apply in_concat. now exists b.
Qed.
Lemma rows_fz e d pd frames out : fresh pd -> 0 < d_pz d -> project (re_z e) d pd (nframes frames) = Ok out ->
  forall r, In r (pd_peaks out) -> proper_disc out r -> first_zero (re_z e) d r = Fin (disc_radius d out r).
Proof.
  intros Hf Hp Ho r Hr Hd. apply first_zero_val; auto; [|exact (out_columns _ _ _ _ _ Hf Ho)].
  destruct (projected_prow _ _ _ _ _ _ Hf (nframes_ge frames) Ho Hr) as (k & zd & yd & i & P). apply (pr_len _ _ _ _ _ _ _ P).
Qed.
(** A picture is made, whatever the machine, when the sampled discs have a whole radius: each disc is at most two pixels
    or at least 32 pixels in radius, or four times its radius is a whole number. *)
Lemma pC100_whole_radii : forall e d pd frames ml mi out, fresh pd -> built d -> 0 < d_pz d -> permutes (re_argsort e) ->
  project (re_z e) d pd (if (frames <? 1)%Z then 1%Z else frames) = Ok out ->
  (forall r, In r (pd_peaks out) -> proper_disc out r) ->
  (forall r, In r (pd_peaks out) -> disc_radius d out r <= 2 \/ (exists n, 4 * disc_radius d out r = IZR n) \/ 32 <= disc_radius d out r) ->
  exists im, render e d pd frames "nano" ml mi = Ok (im, out).
Proof.
  intros e d pd frames ml mi out Hf Hb Pz Hp Ho Hd Hw. fold (nframes frames) in Ho. destruct (proj2 (pC46_built_has_kernel d Hb)) as (psf & Hk).
  eapply nano_succeeds; eauto. intros sorted bs b _ _ _ Hne Hi.
  assert (EM : map (first_zero (re_z e) d) b = map Fin (map (disc_radius d out) b)) by (rewrite map_map; apply map_ext_in; intros; eapply rows_fz; eauto).
  destruct b as [|r b]; [contradiction|].
  destruct (fold_nmax_fin (map (disc_radius d out) b) (disc_radius d out r)) as (m & Em & Hm & _).
  assert (Hm' : exists q, In q (r :: b) /\ m = disc_radius d out q).
  { destruct Hm as [->|Hm]; [exists r; split; auto; now left|]. apply in_map_iff in Hm as (q & <- & Hq). exists q. split; auto. now right. }
  destruct Hm' as (q & Hq & ->). destruct (whole_radius d (disc_radius d out q) (Hw q (Hi q Hq))) as (n & Hn & HR).
  destruct (kernels_odd (re_z e) (re_j1 e) d psf (r :: b) (IZR n)) as (M & EK); eauto; [|now apply psf_odd with d|apply odd_size; lia].
  rewrite EM. cbn [map nmax_list]. now rewrite Em.
Qed.
(** ... or when all discs have the same radius. *)
Lemma pC100_equal_radii : forall e d pd frames ml mi out, fresh pd -> built d -> 0 < d_pz d -> permutes (re_argsort e) ->
  project (re_z e) d pd (if (frames <? 1)%Z then 1%Z else frames) = Ok out ->
  (forall r, In r (pd_peaks out) -> proper_disc out r) ->
  (forall r r', In r (pd_peaks out) -> In r' (pd_peaks out) -> disc_radius d out r = disc_radius d out r') ->
  exists im, render e d pd frames "nano" ml mi = Ok (im, out).
Proof.
  intros e d pd frames ml mi out Hf Hb Pz Hp Ho Hd Hs. fold (nframes frames) in Ho. destruct (proj2 (pC46_built_has_kernel d Hb)) as (psf & Hk).
  eapply nano_succeeds; eauto. intros sorted bs b _ _ _ Hne Hi.
  assert (EM : map (first_zero (re_z e) d) b = map Fin (map (disc_radius d out) b)) by (rewrite map_map; apply map_ext_in; intros; eapply rows_fz; eauto).
  destruct b as [|r b]; [contradiction|]. set (x := disc_radius d out r).
  assert (exists R, airy_radius d (Fin x) = Ok R) as [R HR] by (unfold airy_radius; eexists; reflexivity).
  destruct (kernels_same (re_z e) (re_j1 e) d psf (r :: b) R (Fin x)) as (M & EK); eauto.
  - intros q Hq. erewrite rows_fz; eauto. f_equal. apply Hs; apply Hi; auto. now left.
  - rewrite EM. cbn [map nmax_list]. fold x. rewrite fold_max_const; auto. intros y Hy. apply in_map_iff in Hy as (q & <- & Hq). apply Hs; apply Hi; [now right|now left].
Qed.
(** ... or when the machine reports no free memory, so that the peaks are drawn one by one. *)
Lemma pC100_one_by_one : forall e d pd frames ml mi out, fresh pd -> built d -> 0 < d_pz d -> permutes (re_argsort e) -> re_free_nano e = 0 ->
  project (re_z e) d pd (if (frames <? 1)%Z then 1%Z else frames) = Ok out ->
  (forall r, In r (pd_peaks out) -> proper_disc out r) ->
  exists im, render e d pd frames "nano" ml mi = Ok (im, out).
Proof.
  intros e d pd frames ml mi out Hf Hb Pz Hp H0 Ho Hd. fold (nframes frames) in Ho. destruct (proj2 (pC46_built_has_kernel d Hb)) as (psf & Hk).
  eapply nano_succeeds; eauto. intros sorted bs b _ Eb Hin Hne Hi. rewrite H0, Rmult_0_l, pC41_no_memory in Eb.
  assert (E : bs = map (fun r => [r]) sorted) by congruence. subst bs. apply in_map_iff in Hin as (r & <- & _).
  assert (Hr : In r (pd_peaks out)) by (apply Hi; now left). set (x := disc_radius d out r).
  assert (FZ : first_zero (re_z e) d r = Fin x) by (eapply rows_fz; eauto).
  assert (exists R, airy_radius d (Fin x) = Ok R) as [R HR] by (unfold airy_radius; eexists; reflexivity).
  destruct (kernels_same (re_z e) (re_j1 e) d psf [r] R (Fin x)) as (M & EK); eauto.
  - intros q [<-|[]]. exact FZ.
  - cbn [map nmax_list fold_left]. now rewrite FZ.
Qed.

(** ** Mixed discs *)
Lemma exp_36 : 10^8 < exp 36.
Proof.
  assert (D : forall x, exp (2 * x) = exp x * exp x) by (intros; rewrite <- exp_plus; f_equal; ring).
  assert (A : 13/4 <= exp (9/4)) by (pose proof (exp_ineq1_le (9/4)); lra).
  assert (A1 : 105/10 <= exp (9/2)) by (replace (9/2) with (2 * (9/4)) by lra; rewrite D; nra).
  assert (A2 : 110 <= exp 9) by (replace 9 with (2 * (9/2)) by lra; rewrite D; nra).
  assert (A3 : 12100 <= exp 18) by (replace 18 with (2 * 9) by lra; rewrite D; nra).
  replace 36 with (2 * 18) by lra. rewrite D. nra.
Qed.
Lemma prof_le1 j1 x s r : 0 < x -> s <= x -> (forall y, Rabs (2 * j1 y) <= Rabs y) -> prof j1 x s r <= 1.
Proof.
  intros Hx Hs Hj. unfold prof, airy_profile. cbv zeta. cbn [nlt]. replace (Rltb x s) with false by (symmetry; apply Rltb_false; lra).
  assert (G : forall y, ~ Rabs y < / 10^8 -> (2 * j1 y / y)^2 <= 1).
  { intros y Hy. assert (P : 0 < / 10^8) by (apply Rinv_0_lt_compat; lra). specialize (Hj y).
    rewrite <- (Rabs_pos_eq ((2 * j1 y / y)^2)) by apply pow2_ge_0. rewrite <- RPow_abs. unfold Rdiv. rewrite Rabs_mult, Rabs_inv.
    assert (0 < Rabs y) by lra. assert (Rabs (2 * j1 y) * / Rabs y <= 1). { apply Rmult_le_reg_r with (Rabs y); auto. rewrite Rmult_assoc, Rinv_l by lra. lra. }
    assert (0 <= Rabs (2 * j1 y) * / Rabs y) by (apply Rmult_le_pos; [apply Rabs_pos|left; now apply Rinv_0_lt_compat]). nra. }
  destruct (Req_EM_T r 0); [|rewrite ndiv_fin by lra]; destruct (Rlt_dec _ _); cbn [fval]; try lra; now apply G.
Qed.
Lemma total_le n g : (forall a b, (a < n)%nat -> (b < n)%nat -> g a b <= 1) -> entry_total n g <= INR n * INR n.
Proof.
  intros H. unfold entry_total. assert (C : forall {A} (l : list A) (f : A -> R) c, (forall x, In x l -> f x <= c) -> sum_list (map f l) <= INR (len l) * c).
  { intros A l f c Hf. induction l as [|x l IH]; [cbn [map]; rewrite sum_list_nil; cbn; lra|]. cbn [map]. rewrite sum_list_cons. cbn [List.length]. rewrite S_INR.
    pose proof (Hf x (or_introl eq_refl)). specialize (IH (fun y Hy => Hf y (or_intror Hy))). lra. }
  eapply Rle_trans; [apply (C nat (seq 0 n) _ (INR n))|rewrite seq_length; lra]. intros a Ha. apply in_seq in Ha.
  eapply Rle_trans; [apply (C nat (seq 0 n) _ 1)|rewrite seq_length; lra]. intros b Hb. apply in_seq in Hb. apply H; lia.
Qed.
Lemma scaled_sum {A} (f : A -> R) c l : sum_list (map (fun x => c * f x) l) = c * sum_list (map f l).
Proof. induction l as [|x l IH]; cbn [map]; rewrite ?sum_list_nil, ?sum_list_cons; [ring|]. rewrite IH. ring. Qed.
Lemma edge_energy g : (forall a b, (a < 18)%nat -> (b < 18)%nat -> 0 <= g a b) -> enclosed 18 g 8 + g 0%nat 9%nat <= entry_total 18 g.
Proof.
  intros H. unfold enclosed, entry_total. change (seq 0 18) with (0%nat :: seq 1 17) at 2 4. cbn [map]. rewrite !sum_list_cons.
  assert (E0 : sum_list (map (fun b => if near 18 8 0 && near 18 8 b then g 0%nat b else 0) (seq 0 18)) = 0) by (apply sum_zero_of; intros b _; reflexivity).
  assert (E1 : g 0%nat 9%nat <= sum_list (map (g 0%nat) (seq 0 18))).
  { change (seq 0 18) with (seq 0 9 ++ 9%nat :: seq 10 8). rewrite map_app, sum_list_app. cbn [map]. rewrite sum_list_cons.
    assert (forall s n, (s + n <= 18)%nat -> 0 <= sum_list (map (g 0%nat) (seq s n))).
    { intros s n Hs. apply sum_list_nonneg. intros x Hx. apply in_map_iff in Hx as (b & <- & Hb). apply in_seq in Hb. apply H; lia. }
    pose proof (H0 0%nat 9%nat ltac:(lia)). pose proof (H0 10%nat 8%nat ltac:(lia)). lra. }
  assert (E2 : sum_list (map (fun a => sum_list (map (fun b => if near 18 8 a && near 18 8 b then g a b else 0) (seq 0 18))) (seq 1 17)) <= sum_list (map (fun a => sum_list (map (g a) (seq 0 18))) (seq 1 17))).
  { apply sum_list_le_map. intros a Ha. apply in_seq in Ha. apply sum_list_le_map. intros b Hb. apply in_seq in Hb. pose proof (H a b ltac:(lia) ltac:(lia)). destruct (_ && _)%bool; lra. }
  lra.
Qed.
Lemma even_crop thr k g : k_n k = 18%nat -> entries k g -> (forall a b, (a < 18)%nat -> (b < 18)%nat -> 0 <= g a b) -> entry_total 18 g = 1 -> thr < g 0%nat 9%nat ->
  crop_radius thr k = 9%nat /\ k_n (crop k 9) = 18%nat.
Proof.
  intros Hn He H0 Ht Hg. destruct (pC43_least_radius thr k g He) as (A & _ & C); [rewrite Hn; exact H0|lia|]. cbv zeta in *. rewrite Hn in *. change (18 / 2)%nat with 9%nat in *.
  split.
  - destruct C as [C|C]; auto. set (r := crop_radius thr k) in *. destruct (Nat.eq_dec r 9) as [->|N]; auto. exfalso.
    pose proof (enclosed_mono 18 g r 8 H0 ltac:(lia)). pose proof (edge_energy g H0). lra.
  - unfold crop. cbn [k_n]. rewrite window_eq by (rewrite Hn; cbn; lia). cbn [snd]. rewrite Hn. reflexivity.
Qed.
Definition even_det : detector := flat 10 1 41 1 (/10^7) 0.
Lemma even_first_zero z t x : first_zero z even_det (disc_row t x) = Fin x.
Proof. exact (disc_first_zero z t x). Qed.
Lemma even_radius : airy_radius even_det (Fin (17/8)) = Ok (17/2).
Proof.
  unfold airy_radius. rewrite Rmax_left by lra. change (d_sigma even_det) with 1. change (d_threshold even_det) with (/10^7). cbn [airy_radius_loop].
  destruct (Rle_dec (4 * (17/8)) 128); [|lra].
  assert (L : nlt (gexp 1 ((4 * (17/8))^2)) (Fin (/10^7/2)) = true).
  { unfold gexp. destruct (Req_EM_T 1 0); [lra|]. cbn [nlt]. apply Rltb_true. apply Rlt_trans with (exp (Ropp 36)).
    - apply exp_increasing. lra.
    - rewrite exp_Ropp. pose proof exp_36. replace (/10^7/2) with (/ (2 * 10^7)) by (field). apply Rinv_lt_contravar; [apply Rmult_lt_0_compat|]; lra. }
  rewrite L. destruct (Rlt_dec 128 _); [lra|]. f_equal. lra.
Qed.
Lemma even_kernel z j1 psf : (forall y, Rabs (2 * j1 y) <= Rabs y) -> 1/10 <= Rabs (j1 (38317/10000 * sqrt (145/2) / (17/8))) ->
  snd (airy_kernel z j1 even_det psf (17/2) (Fin (17/8))) = 19%nat /\ k_n (fst (airy_kernel z j1 even_det psf (17/2) (Fin (17/8)))) = 18%nat.
Proof.
  intros Hj Hv. unfold airy_kernel. cbn [nlt fst snd]. replace (Rltb (17/8) (1/2)) with false by (symmetry; apply Rltb_false; lra).
  set (k0 := airy_grid z j1 even_det (17/2) (Fin (17/8))).
  assert (EN : k_n k0 = 18%nat). { unfold k0, airy_grid. cbn [k_n]. rewrite (ceil_eq _ 18) by lra. reflexivity. }
  set (g0 := fun a b : nat => prof j1 (17/8) 1 (sqrt ((- (17/2) + INR a)^2 + (- (17/2) + INR b)^2))).
  assert (EE : entries k0 g0).
  { intros a b _ _. unfold k0, airy_grid, g0. cbn [k_at]. change (d_sigma even_det) with 1. apply (proj1 (profile_prof z j1 (17/8) 1 _ ltac:(lra) ltac:(lra))). }
  assert (P0 : forall a b, (a < 18)%nat -> (b < 18)%nat -> 0 <= g0 a b) by (intros; apply (profile_prof z); lra).
  set (S := entry_total 18 g0).
  assert (S1 : S <= 324). { unfold S. eapply Rle_trans; [apply total_le; intros; apply prof_le1; auto; lra|]. cbn. lra. }
  assert (V : 16/10^5 <= g0 0%nat 9%nat).
  { unfold g0. cbn [INR]. replace ((- (17/2) + 0)^2 + (- (17/2) + (1 + 1 + 1 + 1 + 1 + 1 + 1 + 1 + 1))^2) with (145/2) by field.
    pose proof (sqrt_sqrt (145/2) ltac:(lra)) as Q. pose proof (sqrt_pos (145/2)) as Q0. set (r := sqrt (145/2)) in *. assert (R0 : 8 < r < 9) by (split; nra).
    unfold prof, airy_profile. cbv zeta. destruct (Req_EM_T r 0); [lra|]. cbn [nlt]. rewrite ndiv_fin by lra.
    replace (Rltb (17/8) 1) with false by (symmetry; apply Rltb_false; lra). set (y := 38317/10000 * r / (17/8)) in *.
    assert (Y : 14 < y) by (unfold y; lra). assert (Y2 : y * y <= 236) by (unfold y; nra).
    destruct (Rlt_dec _ _) as [C|_]; cbn [fval].
    { exfalso. rewrite Rabs_right in C by lra. assert (/10^8 < 1) by (rewrite <- Rinv_1; apply Rinv_lt_contravar; lra). lra. }
    replace ((2 * j1 y / y)^2) with (4 * (j1 y)^2 / (y * y)) by (field; lra).
    assert (J : 1/100 <= (j1 y)^2). { rewrite <- (pow2_abs (j1 y)). set (j := Rabs (j1 y)) in *. nra. }
    apply Rmult_le_reg_r with (y * y); [nra|]. unfold Rdiv at 2. rewrite Rmult_assoc, Rinv_l by nra. nra. }
  assert (S0 : 0 < S). { unfold S. pose proof (entry_total_ge 18 g0 0 9 ltac:(lia) ltac:(lia) P0). lra. }
  assert (KE : entries (knorm z k0) (fun a b => g0 a b / S)).
  { intros a b Ha Hb. cbn [knorm k_at k_n] in *. rewrite (ksum_entries _ _ EE), EN. fold S. rewrite (EE a b Ha Hb). apply ndiv_fin. lra. }
  assert (KT : entry_total 18 (fun a b => g0 a b / S) = 1).
  { rewrite !entry_total_list. unfold Rdiv. rewrite (sum_list_ext _ (fun ab => / S * g0 (fst ab) (snd ab))) by (intros; ring).
    rewrite scaled_sum. rewrite <- entry_total_list. fold S. field. lra. }
  destruct (even_crop (d_threshold even_det) (knorm z k0) (fun a b => g0 a b / S)) as [C1 C2]; auto.
  - intros a b Ha Hb. apply Rmult_le_pos; [auto|left; now apply Rinv_0_lt_compat].
  - change (d_threshold even_det) with (/10^7). apply Rmult_lt_reg_r with S; auto. unfold Rdiv. rewrite Rmult_assoc, Rinv_l by lra.
    apply Rle_lt_trans with (/10^7 * 324); [apply Rmult_le_compat_l; [left; apply Rinv_0_lt_compat; lra|lra]|]. lra.
  - rewrite C1. split; auto.
Qed.

Lemma even_memory z t x n : 4 * x <= IZR n < 4 * x + 1 -> 3 <= 4 * x -> airy_memory z even_det (disc_row t x) = Fin ((2 * IZR n + 1)^2 * 96).
Proof.
  intros H H3. unfold airy_memory. rewrite even_first_zero. change (d_sigma even_det) with 1. cbv zeta. cbn [nmul nmax nlt].
  replace (Rltb (4 * x) (3 * 1)) with false by (symmetry; apply Rltb_false; lra). cbn [nceil]. rewrite (ceil_eq (4 * x) n) by lra. unfold nadd. cbn [nmul]. f_equal. ring.
Qed.
Lemma narrow_memory z t x : 4 * x < 3 -> airy_memory z even_det (disc_row t x) = Fin (49 * 96).
Proof.
  intros H. unfold airy_memory. rewrite even_first_zero. change (d_sigma even_det) with 1. cbv zeta. cbn [nmul nmax nlt].
  replace (Rltb (4 * x) (3 * 1)) with true by (symmetry; apply Rltb_true; lra). cbn [nceil]. rewrite (ceil_eq (3 * 1) 3) by lra. unfold nadd. cbn [nmul]. f_equal. ring.
Qed.
Lemma psf_one : exists psf, psf_kernel even_det = Ok psf /\ k_n psf = 1%nat.
Proof.
  destruct (pC46_kernel even_det) as (k & g & Hk & He & Hn & _ & Ht & _); [cbn; lra|cbn; lia|].
  assert (E : psf_radius even_det = 0%Z) by reflexivity. rewrite E in Hn. change (Z.to_nat (2 * 0 + 1)) with 1%nat in Hn. now exists k.
Qed.
Lemma one_kernel z j1 psf R : k_n psf = 1%nat ->
  snd (airy_kernel z j1 even_det psf R (Fin (1/4))) = 3%nat /\ k_n (fst (airy_kernel z j1 even_det psf R (Fin (1/4)))) = 1%nat.
Proof.
  intros Hn. unfold airy_kernel. cbn [nlt fst snd]. replace (Rltb (1/4) (1/2)) with true by (symmetry; apply Rltb_true; lra).
  set (k := knorm z psf). assert (Nk : k_n k = 1%nat) by exact Hn. unfold crop_radius. rewrite Nk. cbn [Nat.div Nat.divmod fst crop_search]. split; [reflexivity|].
  unfold crop. cbn [k_n]. unfold window. rewrite Nk. reflexivity.
Qed.
Lemma mixed_kernels z j1 psf t t' : (forall y, Rabs (2 * j1 y) <= Rabs y) -> 1/10 <= Rabs (j1 (38317/10000 * sqrt (145/2) / (17/8))) -> k_n psf = 1%nat ->
  airy_kernels z j1 even_det psf [disc_row t (17/8); disc_row t' (1/4)] = Err RuntimeError.
Proof.
  intros Hj Hv Hn. unfold airy_kernels. cbn [map nmax_list fold_left]. rewrite !even_first_zero. cbn [nmax nlt].
  replace (Rltb (17/8) (1/4)) with false by (symmetry; apply Rltb_false; lra). rewrite even_radius. cbn [bind map].
  destruct (even_kernel z j1 psf Hj Hv) as [A B]. destruct (one_kernel z j1 psf (17/2) Hn) as [C D].
  set (k1 := airy_kernel z j1 even_det psf (17/2) (Fin (17/8))) in *. set (k2 := airy_kernel z j1 even_det psf (17/2) (Fin (1/4))) in *. clearbody k1 k2.
  cbn [fold_right]. rewrite A, C. change (Nat.max 19 (Nat.max 3 0)) with 19%nat. unfold pad_to. rewrite B, D. reflexivity.
Qed.
Definition mixed_spots : list spot := [disc_spot (1/4) (17/8); disc_spot (3/4) (1/4)].
Lemma mixed_project me b : project false even_det (spot_table mixed_spots me b) 2 = Ok (projected_table 2 mixed_spots me b).
Proof.
  apply flat_project; try lra. apply Forall_cons; [|apply Forall_cons; [|apply Forall_nil]]; unfold good_spot; cbn [disc_spot s_y s_h s_sf]; change (IZR 41) with 41; repeat split; lra.
Qed.
Lemma mixed_err j1 argsort me b : (forall y, Rabs (2 * j1 y) <= Rabs y) -> 1/10 <= Rabs (j1 (38317/10000 * sqrt (145/2) / (17/8))) ->
  permutes argsort -> descending argsort -> render (with_memory 1 (ex_env 0 j1 argsort)) even_det (spot_table mixed_spots me b) 2 "nano" None 1 = Err RuntimeError.
Proof.
  intros Hj Hv Hp Hd. destruct psf_one as (psf & Hpsf & Hn1). pose proof (mixed_project me b) as HP. set (e := ex_env 0 j1 argsort). set (ss := mixed_spots) in *. set (out := projected_table 2 ss me b) in *.
  set (rA := disc_row (1/4) (17/8)). set (rB := disc_row (3/4) (1/4)).
  pose proof (even_memory false (1/4) (17/8) 9 ltac:(lra) ltac:(lra)) as MA. pose proof (narrow_memory false (3/4) (1/4) ltac:(lra)) as MB.
  unfold render. cbv zeta. change (2 <? 1)%Z with false. cbv iota. change (re_z (with_memory 1 e)) with false. rewrite HP. cbn [bind String.eqb Ascii.eqb Bool.eqb].
  unfold nano_method, render_airy. change (pd_peaks out) with [rA; rB]. cbn [map with_memory e ex_env re_z re_j1 re_argsort re_free_nano]. cbv iota.
  rewrite Hpsf. cbn [bind]. fold rA in MA. fold rB in MB. rewrite MA, MB. rewrite (sort_two argsort _ _ Hp Hd) by lra.
  unfold gather. cbn [traverse nth_error bind List.length].
  assert (FC : airy_batches (airy_memory false even_det) (1 * 1024^3) [rA; rB] 2 = Some [[rA; rB]]).
  { cbn [airy_batches]. assert (F : fit_count (1 * 1024^3) (map (airy_memory false even_det) [rA; rB]) = 2%nat).
    { unfold fit_count. cbn [map]. rewrite MA, MB. cbn [cumsum]. unfold nadd. cbn [filter nle].
      replace (Rleb (0 + (2 * 9 + 1) ^ 2 * 96) (1 * 1024 ^ 3)) with true by (symmetry; apply Rleb_true; lra).
      replace (Rleb (0 + (2 * 9 + 1) ^ 2 * 96 + 49 * 96) (1 * 1024 ^ 3)) with true by (symmetry; apply Rleb_true; lra). reflexivity. }
    rewrite F. cbn [firstn skipn option_map]. reflexivity. }
  rewrite FC. cbn [airy_loop]. unfold airy_batch. unfold rA, rB. rewrite (mixed_kernels false j1 psf _ _ Hj Hv Hn1). reflexivity.
Qed.
(** Two discs on two frames, one of radius 17/8 pixels and one narrower than half a pixel: a machine without free memory
    makes the picture, a machine with 1 GB raises RuntimeError.  This holds for every j1 that, like the Bessel function,
    is bounded by half its argument and is not tiny at one point, and every correct sorting routine. *)
Lemma pC100_mixed_radii_refuted : forall j1 argsort, (forall y, Rabs (2 * j1 y) <= Rabs y) -> 1/10 <= Rabs (j1 (38317/10000 * sqrt (145/2) / (17/8))) ->
  permutes argsort -> descending argsort ->
  exists d pd e im out, built d /\ fresh pd /\ volumes_ok pd /\ 0 < d_pz d /\ re_j1 e = j1 /\ re_argsort e = argsort /\
    (forall r, In r (pd_peaks out) -> proper_disc out r) /\
    render (with_memory 0 e) d pd 2 "nano" None 1 = Ok (im, out) /\
    render (with_memory 1 e) d pd 2 "nano" None 1 = Err RuntimeError.
Proof.
  intros j1 argsort Hj Hv Hp Hd. destruct ex_world as (me & b & _). set (e := ex_env 0 j1 argsort).
  set (ss := mixed_spots). set (out := projected_table 2 ss me b).
  assert (HP : project false even_det (spot_table ss me b) 2 = Ok out).
  { apply flat_project; try lra. apply Forall_cons; [|apply Forall_cons; [|apply Forall_nil]]; unfold good_spot; cbn [disc_spot s_y s_h s_sf]; change (IZR 41) with 41; repeat split; lra. }
  assert (PD : forall r, In r (pd_peaks out) -> proper_disc out r).
  { intros r Hr. assert (exists t x, r = disc_row t x) as (t & x & ->) by (cbn in Hr; destruct Hr as [<-|[<-|[]]]; do 2 eexists; reflexivity).
    assert (E1 : read out (disc_row t x) "incident_angle" = 0) by reflexivity.
    split; [eexists; reflexivity|]. split; [eexists; reflexivity|]. rewrite E1, Rmult_0_l, cos_0. lra. }
  assert (FR : fresh (spot_table ss me b)) by apply spot_fresh. assert (BU : built even_det) by (apply flat_built; [lra|lia]).
  destruct (pC100_one_by_one (with_memory 0 e) even_det (spot_table ss me b) 2 None 1 out FR BU ltac:(cbn; lra) Hp eq_refl HP PD) as (im & Him).
  exists even_det, (spot_table ss me b), e, im, out. split; [exact BU|]. split; [exact FR|].
  split; [apply volumes_spot; apply Forall_cons; [|apply Forall_cons; [|apply Forall_nil]]; cbn; lra|]. split; [cbn; lra|]. split; [reflexivity|]. split; [reflexivity|]. split; [exact PD|]. split; [exact Him|].
  now apply mixed_err.
Qed.
(** Functions as required exist (the Bessel function is about 0.186 at that point). *)
Lemma xC100_bessel_like : exists j1 : R -> R, (forall y, Rabs (2 * j1 y) <= Rabs y) /\ 1/10 <= Rabs (j1 (38317/10000 * sqrt (145/2) / (17/8))).
Proof.
  exists (fun y => y / 2). split; [intros; replace (2 * (y / 2)) with y by field; lra|].
  assert (8 < sqrt (145/2)) by (rewrite <- (sqrt_square 8) by lra; apply sqrt_lt_1; lra). rewrite Rabs_right; lra.
Qed.
(** Discs of three and two pixels: every machine makes the picture. *)
Lemma xC100_whole : exists e d pd out, built d /\ fresh pd /\ 0 < d_pz d /\ permutes (re_argsort e) /\ project (re_z e) d pd 2 = Ok out /\
  List.length (pd_peaks out) = 2%nat /\ (forall r, In r (pd_peaks out) -> proper_disc out r) /\
  (forall r, In r (pd_peaks out) -> disc_radius d out r <= 2 \/ (exists n, 4 * disc_radius d out r = IZR n) \/ 32 <= disc_radius d out r) /\
  (exists r, In r (pd_peaks out) /\ disc_radius d out r = 3).
Proof.
  destruct ex_world as (me & b & _). set (e := ex_env 0 (fun _ => 1) sort_desc). set (ss := [disc_spot (1/4) 3; disc_spot (3/4) 2]). set (out := projected_table 2 ss me b).
  assert (HP : project false nano_det (spot_table ss me b) 2 = Ok out).
  { apply flat_project; try lra. apply Forall_cons; [|apply Forall_cons; [|apply Forall_nil]]; unfold good_spot; cbn [disc_spot s_y s_h s_sf]; change (IZR 41) with 41; repeat split; lra. }
  assert (PD : forall t x, proper_disc out (disc_row t x) /\ disc_radius nano_det out (disc_row t x) = x).
  { intros t x. assert (E1 : read out (disc_row t x) "incident_angle" = 0) by reflexivity. assert (E2 : read out (disc_row t x) "scherrer_fwhm" = x / (11861/1000)) by reflexivity.
    split; [split; [eexists; reflexivity|]; split; [eexists; reflexivity|]; rewrite E1, Rmult_0_l, cos_0; lra|].
    unfold disc_radius. rewrite E1, E2, Rmult_0_l, cos_0. change (d_c0 nano_det) with (V3 10 0 0). change (d_pz nano_det) with 1. rewrite (norm_sqrt_eq (V3 10 0 0) 10) by (vunf; lra). field. }
  exists e, nano_det, (spot_table ss me b), out. split; [apply flat_built; [lra|lia]|]. split; [apply spot_fresh|]. split; [cbn; lra|]. split; [apply sort_permutes|]. split; [exact HP|]. split; [reflexivity|].
  change (pd_peaks out) with [disc_row (1/4) 3; disc_row (3/4) 2]. split; [|split].
  - intros r [<-|[<-|[]]]; apply PD.
  - intros r [<-|[<-|[]]]; rewrite (proj2 (PD _ _)); [right; left; exists 12%Z; lra|left; lra].
  - exists (disc_row (1/4) 3). split; [now left|apply PD].
Qed.
(** The search of C43 on a kernel of a single entry: the kernel is left as it is. *)
Lemma pC43_single_entry : forall thr k, k_n k = 1%nat ->
  k_n (crop k (crop_radius thr k)) = 1%nat /\ k_at (crop k (crop_radius thr k)) 0 0 = k_at k 0 0.
Proof.
  intros thr k Nk. unfold crop_radius. rewrite Nk. cbn [Nat.div Nat.divmod fst crop_search]. unfold crop. cbn [k_n k_at]. unfold window. rewrite Nk. split; reflexivity.
Qed.
