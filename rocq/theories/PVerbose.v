(** * Proofs about MVerbose: what rendering prints (C85). *)
From Verif Require Import Vec Spec MMotion PMotion MLaue PLaue MMesh SMesh PMesh MScattering SScattering PScattering.
From Verif Require Import MStrain SStrain PStrain MBeam SBeam PBeam MPolycrystal SPolycrystal PPolycrystal.
From Verif Require Import MDetector SDetector PDetector PDetector2 PDetector3 MClip MRender SRender PRender PRender2 PKernel SNano PNano PRenderEx PRender3 MVerbose SVerbose.
From Coq Require Import Permutation.
Open Scope R_scope.
Local Notation len := List.length.

(** ** Numbers *)
Lemma slen_app a b : String.length (a ++ b) = (String.length a + String.length b)%nat.
Proof. induction a; cbn; auto. Qed.
Lemma digits_len k : forall f n, (1 <= k)%nat -> (n < Nat.pow 10 k)%nat -> (String.length (digits f n) <= k)%nat.
Proof.
  induction k as [|k IH]; intros f n Hk Hn; [lia|]. destruct f as [|f]; [cbn; lia|]. cbn [digits].
  destruct (Nat.ltb_spec n 10) as [L|L]; [cbn; lia|]. rewrite slen_app. cbn [digit String.length].
  destruct k as [|k]; [cbn in Hn; lia|].
  assert (n / 10 < Nat.pow 10 (S k))%nat.
  { apply Nat.div_lt_upper_bound; [lia|]. rewrite Nat.pow_succ_r' in Hn. exact Hn. }
  specialize (IH f (n / 10)%nat ltac:(lia) H). lia.
Qed.
Lemma read_app s c acc : read_from acc (s ++ String c EmptyString) = (10 * read_from acc s + (Ascii.nat_of_ascii c - 48))%nat.
Proof. revert acc. induction s as [|d s IH]; intros acc; [reflexivity|]. cbn [append read_from]. apply IH. Qed.
Lemma digit_code d : (d < 10)%nat -> (Ascii.nat_of_ascii (Ascii.ascii_of_nat (48 + d)) - 48)%nat = d.
Proof. intros H. rewrite Ascii.nat_ascii_embedding by lia. lia. Qed.
Lemma digits_read f : forall n, (n < f)%nat -> read_from 0 (digits f n) = n.
Proof.
  induction f as [|f IH]; intros n Hn; [lia|]. cbn [digits]. destruct (Nat.ltb_spec n 10) as [L|L].
  - unfold digit. cbn [read_from]. rewrite digit_code by auto. lia.
  - unfold digit at 1. rewrite read_app, digit_code by (apply Nat.mod_upper_bound; lia).
    rewrite IH.
    + symmetry. apply Nat.div_mod. lia.
    + assert (n / 10 < n)%nat by (apply Nat.div_lt; lia). lia.
Qed.
Lemma app_nonempty a c : (a ++ String c EmptyString)%string <> EmptyString.
Proof. destruct a; discriminate. Qed.
(** The numbers in the messages are the decimal notation of the numbers meant. *)
Lemma pC85_numbers : forall n, reads (str n) n.
Proof.
  intros n. split; [|apply digits_read; lia]. unfold str. cbn [digits]. destruct (Nat.ltb n 10); [discriminate|apply app_nonempty].
Qed.
Lemma str_short n N : INR N < 10^18 -> (n <= N)%nat -> (String.length (str n) <= 18)%nat.
Proof.
  intros H Hn. apply digits_len; [lia|]. apply INR_lt. rewrite pow_INR. apply le_INR in Hn.
  replace (INR 10) with 10 by (cbn; lra). lra.
Qed.

(** ** The bar *)
Lemma bar_ok message f : 0 <= f <= 1 ->
  bar_shows (Bar message (ztrunc (f * 40)) (IZR (rint (100 * f * 10)) / 10) (Reqb f 1)) message f.
Proof.
  intros Hf. do 3 eexists. split; [reflexivity|].
  assert (T : ztrunc (f * 40) = Int_part (f * 40)) by (unfold ztrunc; destruct (Rlt_dec (f * 40) 0); [lra|reflexivity]).
  rewrite T. destruct (base_Int_part (f * 40)) as [B1 B2].
  assert (R1 : IZR (Int_part (f * 40)) <= 40 * f < IZR (Int_part (f * 40)) + 1) by lra.
  assert (R0 : (0 <= Int_part (f * 40) <= 40)%Z).
  { split.
    - assert (-1 < Int_part (f * 40))%Z by (apply lt_IZR; lra). lia.
    - apply le_IZR. lra. }
  split; auto. split; auto.
  assert (RI : Rabs (IZR (rint (100 * f * 10)) - 100 * f * 10) <= 1/2).
  { unfold rint, frac_part. set (x := 100 * f * 10). destruct (base_Int_part x) as [C1 C2].
    destruct (Rlt_dec (x - IZR (Int_part x)) (1/2)); [apply Rabs_le; lra|].
    destruct (Rlt_dec (1/2) (x - IZR (Int_part x))); [rewrite plus_IZR; apply Rabs_le; lra|].
    destruct (Z.even _); [|rewrite plus_IZR]; apply Rabs_le; lra. }
  assert (RB : (0 <= rint (100 * f * 10) <= 1000)%Z).
  { apply Rabs_le_inv in RI. split.
    - assert (-1 < rint (100 * f * 10))%Z by (apply lt_IZR; lra). lia.
    - assert (rint (100 * f * 10) < 1001)%Z by (apply lt_IZR; lra). lia. }
  assert (RR : 0 <= IZR (rint (100 * f * 10)) <= 1000) by (split; apply IZR_le; lia).
  split; [lra|]. split; [|split; [eauto|apply Reqb_true]].
  apply Rabs_le. apply Rabs_le_inv in RI. lra.
Qed.

(** ** Logged computations *)
Lemma snd_then {A B} (x : logged A) (k : A -> logged B) : snd (and_then x k) = let* a := snd x in snd (k a).
Proof. unfold and_then. destruct (snd x); reflexivity. Qed.
Lemma fst_then {A B} (x : logged A) (k : A -> logged B) a : snd x = Ok a -> fst (and_then x k) = fst x ++ fst (k a).
Proof. unfold and_then. intros ->. reflexivity. Qed.
Lemma then_quiet {A B} (x : logged A) (k : A -> logged B) : fst x = [] -> (forall a, fst (k a) = []) -> fst (and_then x k) = [].
Proof. intros H K. unfold and_then. destruct (snd x); cbn [fst]; rewrite H; [apply K|reflexivity]. Qed.

Definition fits (v : bool) (m : string) : Prop := v = false \/ (String.length m <= 55)%nat.
Lemma progress_ok v f m : fits v m -> snd (progress v f m) = Ok tt.
Proof. intros [->|H]; [reflexivity|]. destruct v; [|reflexivity]. cbn. unfold print_progress. apply Nat.leb_le in H. now rewrite H. Qed.
Lemma progress_bar f m : (String.length m <= 55)%nat ->
  progress true f m = ([Bar m (ztrunc (f * 40)) (IZR (rint (100 * f * 10)) / 10) (Reqb f 1)], Ok tt).
Proof. intros H. cbn. unfold print_progress. apply Nat.leb_le in H. now rewrite H. Qed.
Lemma progress_quiet f m : fst (progress false f m) = [].
Proof. reflexivity. Qed.

(** A list of bars, one per entry of [ends]. *)
Fixpoint bars (n : nat) (msg : nat -> string) (k : nat) (ends : list nat) : list output :=
  match ends with
  | [] => []
  | e :: r => Bar (msg k) (ztrunc (INR e / INR n * 40)) (IZR (rint (100 * (INR e / INR n) * 10)) / 10) (Reqb (INR e / INR n) 1) :: bars n msg (k + 1) r
  end.
Lemma bars_len n msg ends : forall k, len (bars n msg k ends) = len ends.
Proof. induction ends; intros; cbn; auto. Qed.
Lemma filter_bars n msg ends : forall k, filter is_bar (bars n msg k ends) = bars n msg k ends.
Proof. induction ends; intros; cbn [bars filter is_bar]; f_equal; auto. Qed.
Lemma rising_le ends : forall s n e, rising s ends n -> In e ends -> (s < e <= n)%nat.
Proof.
  induction ends as [|a ends IH]; intros s n e H Hin; [destruct Hin|]. destruct H as [H1 H2].
  assert (G : forall s, rising s ends n -> (s <= n)%nat).
  { clear. induction ends as [|a ends IH]; intros s H; cbn in H; [lia|]. destruct H as [H1 H2]. apply IH in H2. lia. }
  destruct Hin as [->|Hin]; [specialize (G _ H2); lia|]. specialize (IH _ _ _ H2 Hin). lia.
Qed.
Lemma bars_reported log n msg ends s : (0 < n)%nat -> filter is_bar log = bars n msg 0 ends -> rising s ends n -> reported log n msg ends.
Proof.
  intros Hn E HR. unfold reported. rewrite E, bars_len. split; auto.
  assert (HB : forall e, In e ends -> 0 <= INR e / INR n <= 1).
  { intros e He. apply (rising_le _ _ _ _ HR) in He. apply lt_INR in Hn. cbn in Hn. destruct He as [_ He]. apply le_INR in He. split.
    - apply Rmult_le_pos; [apply pos_INR|]. apply Rlt_le, Rinv_0_lt_compat. lra.
    - apply Rmult_le_reg_r with (INR n); auto. unfold Rdiv. rewrite Rmult_assoc, Rinv_l by lra. lra. }
  clear E HR Hn s. assert (G : forall ends j k e, (forall e, In e ends -> 0 <= INR e / INR n <= 1) -> nth_error ends k = Some e ->
     exists o, nth_error (bars n msg j ends) k = Some o /\ bar_shows o (msg (j + k)%nat) (INR e / INR n)).
  { clear. induction ends as [|a ends IH]; intros j k e HB H; [destruct k; discriminate|]. destruct k as [|k]; cbn in H.
    - inversion H; subst. eexists. split; [reflexivity|]. rewrite Nat.add_0_r. apply bar_ok. apply HB. now left.
    - cbn [bars nth_error]. replace (j + S k)%nat with ((j + 1) + k)%nat by lia. apply IH; auto. intros. apply HB. now right. }
  intros k e H. apply (G _ 0%nat k e HB H).
Qed.
(** Numbers of finished rows after each batch. *)
Fixpoint stops {A} (start : nat) (bs : list (list A)) : list nat :=
  match bs with [] => [] | b :: r => (start + len b)%nat :: stops (start + len b) r end.
Lemma stops_len {A} (bs : list (list A)) : forall s, len (stops s bs) = len bs.
Proof. induction bs; intros; cbn; auto. Qed.
Lemma stops_rising {A} (bs : list (list A)) : forall s, Forall (fun b => b <> []) bs -> rising s (stops s bs) (s + len (List.concat bs)).
Proof.
  induction bs as [|b bs IH]; intros s H; cbn [stops rising List.concat]; [cbn; lia|]. inversion H as [|? ? Hb Hr]; subst.
  split; [destruct b; [contradiction|cbn; lia]|]. rewrite app_length. rewrite Nat.add_assoc. apply IH. auto.
Qed.
Lemma concat_len {A} (bs : list (list A)) : Forall (fun b => b <> []) bs -> (len bs <= len (List.concat bs))%nat.
Proof. induction bs as [|b bs IH]; intros H; cbn; [lia|]. inversion H; subst. rewrite app_length. destruct b; [contradiction|]. cbn. specialize (IH H3). lia. Qed.
Lemma batch_len_le {A} (bs : list (list A)) b : In b bs -> (len b <= len (List.concat bs))%nat.
Proof. induction bs as [|c bs IH]; intros H; [destruct H|]. cbn. rewrite app_length. destruct H as [->|H]; [lia|apply IH in H; lia]. Qed.

(** ** Micro *)
Lemma g_io_snd v d n nb bs : forall k s im, (forall j, (j < k + len bs)%nat -> fits v ("[Micro] Batch " ++ str (j + 1) ++ "/" ++ str nb)) ->
  snd (g_loop_io v d n nb k s im bs) = g_loop d im bs.
Proof.
  induction bs as [|b bs IH]; intros k s im H; cbn [g_loop_io g_loop]; [reflexivity|].
  rewrite snd_then, progress_ok by (apply H; cbn; lia). cbn [bind]. rewrite snd_then. cbn [done snd].
  destruct (index_put _ _); cbn [bind]; auto. apply IH. intros j Hj. apply H. cbn [len]. lia.
Qed.
Lemma g_io_quiet d n nb bs : forall k s im, fst (g_loop_io false d n nb k s im bs) = [].
Proof. induction bs as [|b bs IH]; intros k s im; cbn [g_loop_io]; [reflexivity|]. apply then_quiet; auto. intros _. apply then_quiet; auto. Qed.
Lemma g_io_bars d n nb bs : forall k s im im', (forall j, (j < k + len bs)%nat -> (String.length ("[Micro] Batch " ++ str (j + 1) ++ "/" ++ str nb) <= 55)%nat) ->
  g_loop d im bs = Ok im' ->
  fst (g_loop_io true d n nb k s im bs) = bars n (fun j => "[Micro] Batch " ++ str (j + 1) ++ "/" ++ str nb)%string k (stops s bs).
Proof.
  induction bs as [|b bs IH]; intros k s im im' H HI; cbn [g_loop_io g_loop stops bars] in *; [reflexivity|].
  rewrite progress_bar by (apply H; cbn; lia). destruct (index_put _ _) as [im1|] eqn:E; cbn [bind] in HI; [|discriminate].
  rewrite (fst_then _ _ tt) by reflexivity. cbn [fst app]. f_equal. rewrite (fst_then _ _ im1) by reflexivity. cbn [done fst app].
  apply (IH _ _ _ im'); auto. intros j Hj. apply H. cbn [len]. lia.
Qed.
Lemma batches_nonempty {A} bs (l : list A) : (0 < bs)%nat -> Forall (fun b => b <> []) (batches bs l).
Proof.
  intros Hb. unfold batches. rewrite Forall_map, Forall_forall. intros k Hk. apply in_seq in Hk.
  assert (L : (k * bs < len l)%nat).
  { destruct Hk as [_ Hk]. cbn in Hk. assert (k <= (len l + bs - 1) / bs - 1)%nat by lia.
    pose proof (Nat.mul_div_le (len l + bs - 1) bs ltac:(lia)). nia. }
  intros E. apply (f_equal (@List.length A)) in E. rewrite firstn_length, skipn_length in E. cbn in E. lia.
Qed.
Lemma gbs_pos x : (0 < g_batch_size x)%nat.
Proof. pose proof (batch_size_range x). lia. Qed.
Lemma micro_messages N n : INR N < 10^18 -> (n <= N)%nat -> forall j, (j + 1 <= N)%nat ->
  (String.length ("[Micro] Batch " ++ str (j + 1) ++ "/" ++ str n) <= 55)%nat.
Proof.
  intros HN Hn j Hj. rewrite !slen_app. pose proof (str_short (j + 1) N HN Hj). pose proof (str_short n N HN Hn). cbn [String.length]. lia.
Qed.
Lemma micro_snd v e d rows fr : v = false \/ INR (len rows) < 10^18 -> snd (micro_io v e d rows fr) = micro_method e d rows fr.
Proof.
  intros H. unfold micro_io, micro_method, render_gauss. cbv zeta. apply g_io_snd. intros j Hj. destruct H as [->|H]; [now left|]. right.
  set (bs := batches _ _) in *. assert (len bs <= len rows)%nat.
  { pose proof (concat_len bs (batches_nonempty _ _ (gbs_pos _))) as C. unfold bs in C at 2. rewrite batches_concat in C by apply gbs_pos. exact C. }
  apply (micro_messages (len rows)); auto. lia.
Qed.
Lemma micro_quiet e d rows fr : fst (micro_io false e d rows fr) = [].
Proof. apply g_io_quiet. Qed.
(** ** Nano *)
Lemma airy_batches_spec {A} (mem : A -> num) avail fuel : forall l bs, airy_batches mem avail l fuel = Some bs ->
  List.concat bs = l /\ Forall (fun b => b <> []) bs.
Proof.
  induction fuel as [|f IH]; intros l bs H; destruct l as [|x l]; cbn [airy_batches] in H.
  - inversion H; subst. split; [reflexivity|constructor].
  - discriminate.
  - inversion H; subst. split; [reflexivity|constructor].
  - set (b := fit_count _ _) in *. destruct (airy_batches mem avail (skipn b (x :: l)) f) as [bs'|] eqn:E; [|discriminate]. cbn [option_map] in H. inversion H; subst.
    apply IH in E as [E1 E2]. split; [cbn [List.concat]; rewrite E1; apply firstn_skipn|]. constructor; auto.
    assert (1 <= b)%nat by (unfold b, fit_count; lia). destruct b; [lia|]. discriminate.
Qed.
Lemma a_io_snd v z j1 d psf fr n bs : forall k s im,
  (forall j b, (j < k + len bs)%nat -> In b bs -> fits v ("[Nano] Batch " ++ str (j + 1) ++ ", n=" ++ str (len b))) ->
  snd (airy_loop_io v z j1 d psf fr n k s im bs) = airy_loop z j1 d psf fr im bs.
Proof.
  induction bs as [|b bs IH]; intros k s im H; cbn [airy_loop_io airy_loop]; [reflexivity|].
  rewrite snd_then. cbn [snd]. destruct (airy_batch _ _ _ _ _ _ _); cbn [bind]; auto.
  rewrite snd_then, progress_ok by (apply H; [cbn; lia|now left]). cbn [bind]. apply IH. intros j b' Hj Hb. apply H; [cbn; lia|now right].
Qed.
Lemma a_io_quiet z j1 d psf fr n bs : forall k s im, fst (airy_loop_io false z j1 d psf fr n k s im bs) = [].
Proof. induction bs as [|b bs IH]; intros k s im; cbn [airy_loop_io]; [reflexivity|]. apply then_quiet; auto. intros ?. apply then_quiet; auto. Qed.
Lemma filter_note v z d b : filter is_bar (radius_note v z d b) = [].
Proof. unfold radius_note. cbv zeta. destruct (_ && _); reflexivity. Qed.

Definition nano_message (all : list nat) (j : nat) : string :=
  "[Nano] Batch " ++ str (j + 1) ++ ", n=" ++ str (nth j all 0 - nth j (0 :: all) 0)%nat.
Lemma a_io_bars z j1 d psf fr n all bs : forall k s im im', (forall j, nth_error (stops s bs) j = nth_error all (k + j)) ->
  (bs = [] \/ nth k (0%nat :: all) 0%nat = s) ->
  (forall j b, (j < k + len bs)%nat -> In b bs -> (String.length ("[Nano] Batch " ++ str (j + 1) ++ ", n=" ++ str (len b)) <= 55)%nat) ->
  airy_loop z j1 d psf fr im bs = Ok im' ->
  filter is_bar (fst (airy_loop_io true z j1 d psf fr n k s im bs)) = bars n (nano_message all) k (stops s bs).
Proof.
  induction bs as [|b bs IH]; intros k s im im' HA HS H HI; cbn [airy_loop_io airy_loop stops bars] in *; [reflexivity|].
  destruct (airy_batch _ _ _ _ _ _ _) as [im1|] eqn:E; cbn [bind] in HI; [|discriminate].
  rewrite (fst_then _ _ im1) by reflexivity. cbn [fst]. rewrite filter_app, filter_note. cbn [app].
  rewrite progress_bar by (apply H; [cbn; lia|now left]). rewrite (fst_then _ _ tt) by reflexivity. cbn [fst filter is_bar app].
  destruct HS as [HS|HS]; [discriminate|]. pose proof (HA 0%nat) as H0. cbn in H0. rewrite Nat.add_0_r in H0. symmetry in H0.
  assert (M : ("[Nano] Batch " ++ str (k + 1) ++ ", n=" ++ str (len b))%string = nano_message all k).
  { unfold nano_message. rewrite (nth_error_nth _ _ _ H0), HS. do 4 f_equal. lia. }
  rewrite M. f_equal. apply (IH _ _ _ im'); auto.
  - intros j. replace (k + 1 + j)%nat with (k + S j)%nat by lia. apply (HA (S j)).
  - right. rewrite Nat.add_1_r. cbn [nth]. now rewrite (nth_error_nth _ _ _ H0).
  - intros j b' Hj Hb. apply H; [cbn; lia|now right].
Qed.
Lemma nano_fit N n k : INR N < 10^18 -> (n <= N)%nat -> (k + 1 <= N)%nat ->
  (String.length ("[Nano] Batch " ++ str (k + 1) ++ ", n=" ++ str n) <= 55)%nat.
Proof.
  intros HN Hn Hk. rewrite !slen_app. pose proof (str_short (k + 1) N HN Hk). pose proof (str_short n N HN Hn). cbn [String.length]. lia.
Qed.
Lemma nano_snd v e d rows fr : permutes (re_argsort e) -> v = false \/ INR (len rows) < 10^18 ->
  snd (nano_io v e d rows fr) = nano_method e d rows fr.
Proof.
  intros Hp H. unfold nano_io, nano_method, render_airy. cbv zeta. destruct rows as [|r rows']; [reflexivity|]. set (rows := r :: rows') in *.
  rewrite snd_then. cbn [done snd]. destruct (psf_kernel d) as [psf|]; cbn [bind]; auto.
  rewrite snd_then. cbn [done snd]. destruct (gather rows _) as [sorted|] eqn:Eg; cbn [bind]; auto.
  apply gather_perm in Eg; [|eapply Permutation_trans; [apply Hp|]; now rewrite map_length].
  destruct (pC41_terminates _ (airy_memory (re_z e) d) (re_free_nano e * 1024^3) sorted) as (bs & Eb & Ec & Fb & Lb). rewrite Eb.
  rewrite snd_then. rewrite a_io_snd; [destruct (airy_loop _ _ _ _ _ _ _); reflexivity|].
  intros j b Hj Hb. destruct H as [->|H]; [now left|]. right. apply Permutation_length in Eg.
  apply (nano_fit (len rows)); auto; [|lia]. pose proof (batch_len_le _ _ Hb) as B. rewrite Ec in B. lia.
Qed.
Lemma nano_quiet e d rows fr : fst (nano_io false e d rows fr) = [].
Proof.
  unfold nano_io. cbv zeta. destruct rows as [|r rows']; [reflexivity|].
  apply then_quiet; auto. intros psf. apply then_quiet; auto. intros sorted. destruct (airy_batches _ _ _ _); [|reflexivity].
  apply then_quiet; [apply a_io_quiet|]. reflexivity.
Qed.
Lemma rising_bound ends : forall s n, rising s ends n -> (s <= n)%nat.
Proof. induction ends as [|a l IH]; intros s n H; cbn in H; [lia|]. destruct H as [H1 H2]. apply IH in H2. lia. Qed.
Lemma bars_reports log n msg ends : filter is_bar log = bars n msg 0 ends -> rising 0 ends n -> reported log n msg ends.
Proof.
  intros E HR. destruct n as [|n]; [|apply (bars_reported _ _ _ _ 0); auto; lia].
  destruct ends as [|a l]; [|destruct HR as [H1 H2]; apply rising_bound in H2; lia].
  unfold reported. rewrite E. split; auto. intros k e H. destruct k; discriminate.
Qed.
Lemma nano_log e d rows fr im : permutes (re_argsort e) -> INR (len rows) < 10^18 -> nano_method e d rows fr = Ok im ->
  nano_reports (fst (nano_io true e d rows fr)) (len rows).
Proof.
  intros Hp H. unfold nano_io, nano_method, render_airy. cbv zeta. destruct rows as [|r rows'].
  { intros _. exists []. split; [reflexivity|]. apply bars_reports; reflexivity. }
  set (rows := r :: rows') in *.
  destruct (psf_kernel d) as [psf|]; cbn [bind]; [|discriminate].
  destruct (gather rows _) as [sorted|] eqn:Eg; cbn [bind]; [|discriminate].
  apply gather_perm in Eg; [|eapply Permutation_trans; [apply Hp|]; now rewrite map_length].
  destruct (pC41_terminates _ (airy_memory (re_z e) d) (re_free_nano e * 1024^3) sorted) as (bs & Eb & Ec & Fb & Lb). rewrite Eb.
  destruct (airy_loop _ _ _ _ _ _ _) as [raw|] eqn:El; cbn [bind]; [|discriminate]. intros _.
  apply Permutation_length in Eg.
  assert (R : rising 0 (stops 0 bs) (len rows)).
  { rewrite <- Eg, <- Ec. apply (stops_rising bs 0 Fb). }
  exists (stops 0 bs). split; auto. apply (bars_reports _ _ (nano_message (stops 0 bs))); auto.
  rewrite (fst_then _ _ psf) by reflexivity. cbn [done fst app].
  rewrite (fst_then _ _ sorted) by reflexivity. cbn [done fst app].
  rewrite Eb. rewrite (fst_then _ _ raw).
  - cbn [fst]. rewrite app_nil_r. eapply a_io_bars; eauto.
    intros j b Hj Hb. apply (nano_fit (len rows)); auto; [|lia]. pose proof (batch_len_le _ _ Hb) as B. rewrite Ec in B. lia.
  - rewrite a_io_snd; auto. intros j b Hj Hb. right. apply (nano_fit (len rows)); auto; [|lia]. pose proof (batch_len_le _ _ Hb) as B. rewrite Ec in B. lia.
Qed.
Lemma micro_log e d rows fr im : INR (len rows) < 10^18 -> micro_method e d rows fr = Ok im ->
  micro_reports (fst (micro_io true e d rows fr)) (len rows).
Proof.
  intros H Hm. unfold micro_io. cbv zeta. set (bs := batches _ _). set (B := g_batch_size _) in *.
  assert (HB : (0 < B)%nat) by apply gbs_pos.
  assert (NE : Forall (fun b => b <> []) bs) by (now apply batches_nonempty).
  assert (C : List.concat bs = rows) by (now apply batches_concat).
  assert (L : (len bs <= len rows)%nat) by (rewrite <- C; now apply concat_len).
  exists (stops 0 bs). rewrite stops_len. split; [rewrite <- C; apply (stops_rising bs 0 NE)|].
  apply bars_reports; [|rewrite <- C; apply (stops_rising bs 0 NE)].
  erewrite g_io_bars; [| |exact Hm].
  - apply filter_bars.
  - intros j Hj. apply (micro_messages (len rows)); auto. lia.
Qed.

(** ** Macro *)
Lemma macro_fit N k : INR N < 10^18 -> (k <= N)%nat -> (String.length ("[Macro] Peak " ++ str k ++ "/" ++ str N) <= 55)%nat.
Proof.
  intros HN Hk. rewrite !slen_app. pose proof (str_short k N HN Hk). pose proof (str_short N N HN (le_n _)). cbn [String.length]. lia.
Qed.
Lemma macro_fits N : INR N < 10^18 -> macro_messages_fit N = true.
Proof. intros H. apply forallb_forall. intros k Hk. apply in_seq in Hk. apply Nat.leb_le. apply macro_fit; auto. lia. Qed.
Lemma macro_snd v e d pd rows fr : v = false \/ INR (len rows) < 10^18 -> snd (macro_io v e d pd rows fr) = macro_method e d pd rows fr.
Proof. intros H. unfold macro_io. cbn [snd]. destruct H as [->|H]; [reflexivity|]. rewrite macro_fits by auto. now rewrite orb_true_r. Qed.
Lemma macro_bars_quiet e d b me m n l : forall k, fst (macro_bars false e d b me m n k l) = [].
Proof. induction l as [|kr l IH]; intros k; cbn [macro_bars]; [reflexivity|]. apply then_quiet; auto. intros _. apply then_quiet; auto. Qed.
Lemma macro_quiet e d pd rows fr : fst (macro_io false e d pd rows fr) = [].
Proof. apply macro_bars_quiet. Qed.
Lemma macro_bars_log e d b me m n l : forall k, INR n < 10^18 -> (k + len l <= n)%nat ->
  (forall kr, In kr l -> exists x, macro_deposits e d b me m (fst kr) (snd kr) = Ok x) ->
  fst (macro_bars true e d b me m n k l) = bars n (fun j => "[Macro] Peak " ++ str (j + 1) ++ "/" ++ str n)%string k (seq (k + 1) (len l)).
Proof.
  induction l as [|kr l IH]; intros k HN Hk HO; cbn [macro_bars len seq bars]; [reflexivity|]. cbn [len] in Hk.
  rewrite progress_bar by (apply macro_fit; auto; lia). rewrite (fst_then _ _ tt) by reflexivity. cbn [fst app]. f_equal.
  destruct (HO kr (or_introl eq_refl)) as [x Hx]. rewrite (fst_then _ _ x) by exact Hx. cbn [done fst app].
  rewrite IH; auto; [|lia|intros; apply HO; now right]. f_equal. f_equal. lia.
Qed.
Lemma filter_pick {A} (f : A -> nat) (l : list A) : forall n s, (forall x, In x l -> (s <= f x < s + n)%nat) ->
  Permutation (List.concat (map (fun k => filter (fun x => Nat.eqb (f x) k) l) (seq s n))) l.
Proof.
  induction l as [|a l IH]; intros n s H.
  - replace (List.concat _) with (@nil A); [constructor|]. symmetry. induction (seq s n); cbn; auto.
  - assert (Ha : (s <= f a < s + n)%nat) by (apply H; now left).
    assert (E : seq s n = seq s (f a - s) ++ f a :: seq (S (f a)) (s + n - S (f a))).
    { replace n with ((f a - s) + S (s + n - S (f a)))%nat at 1 by lia. rewrite seq_app. cbn [seq]. replace (s + (f a - s))%nat with (f a) by lia. reflexivity. }
    specialize (IH n s (fun x Hx => H x (or_intror Hx))). rewrite E in *. rewrite !map_app, !concat_app in *. cbn [map List.concat] in *.
    assert (G : forall q c, ~ In (f a) (seq q c) -> List.concat (map (fun k => filter (fun x => Nat.eqb (f x) k) (a :: l)) (seq q c)) = List.concat (map (fun k => filter (fun x => Nat.eqb (f x) k) l) (seq q c))).
    { intros q c Hn. f_equal. apply map_ext_in. intros k Hk. cbn [filter]. destruct (Nat.eqb_spec (f a) k); [subst; contradiction|reflexivity]. }
    rewrite !G by (rewrite in_seq; lia). cbn [filter]. rewrite Nat.eqb_refl. cbn [app].
    eapply Permutation_trans; [symmetry; apply Permutation_middle|]. now constructor.
Qed.
Lemma by_frame_perm rows fr : (forall r, In r rows -> exists k, (k < fr)%nat /\ ncol r 28 = Fin (INR k)) ->
  Permutation (by_frame rows fr) (combine (seq 0 (len rows)) rows).
Proof.
  intros H. set (l := combine _ _).
  assert (HF : forall x, In x l -> exists k, (k < fr)%nat /\ fcol (snd x) 28 = INR k).
  { intros [i r] Hx. apply in_combine_r in Hx. destruct (H r Hx) as (k & Hk & E). exists k. split; auto. unfold fcol. cbn [snd]. now rewrite E. }
  pose (f := fun x : nat * list num => Z.to_nat (Int_part (fcol (snd x) 28))).
  assert (FI : forall k, Z.to_nat (Int_part (INR k)) = k).
  { intros k. rewrite INR_IZR_INZ. rewrite (Int_part_eq _ (Z.of_nat k)) by lra. apply Nat2Z.id. }
  unfold by_frame. fold l. erewrite map_ext_in.
  - apply (filter_pick f). intros x Hx. destruct (HF x Hx) as (k & Hk & E). unfold f. rewrite E, FI. lia.
  - intros k _. apply filter_ext_in. intros x Hx. destruct (HF x Hx) as (j & Hj & E). unfold f. rewrite E, FI.
    destruct (Nat.eqb_spec j k) as [->|N]; [now apply Reqb_true|]. destruct (Reqb (INR j) (INR k)) eqn:Q; auto. apply Reqb_true in Q. apply INR_eq in Q. contradiction.
Qed.
Lemma seq_rising n : forall s, rising s (seq (s + 1) n) (s + n).
Proof. induction n as [|n IH]; intros s; cbn [seq rising]; [lia|]. split; [lia|]. replace (s + S n)%nat with ((s + 1) + n)%nat by lia. replace (S (s + 1))%nat with (s + 1 + 1)%nat by lia. apply IH. Qed.
Lemma macro_log e d pd rows fr im : INR (len rows) < 10^18 -> (forall r, In r rows -> exists k, (k < fr)%nat /\ ncol r 28 = Fin (INR k)) ->
  macro_method e d pd rows fr = Ok im -> macro_reports (fst (macro_io true e d pd rows fr)) (len rows).
Proof.
  intros HN HF Hm. split; [apply (seq_rising (len rows) 0)|]. pose proof (by_frame_perm rows fr HF) as P.
  assert (L : len (by_frame rows fr) = len rows).
  { rewrite (Permutation_length P), combine_length, seq_length. lia. }
  apply bars_reports; [|apply (seq_rising (len rows) 0)]. unfold macro_io. cbn [fst].
  rewrite macro_bars_log; auto; [|lia|].
  - rewrite L. apply filter_bars.
  - intros kr Hk. apply (Permutation_in _ P) in Hk. unfold macro_method, render_macro in Hm. destruct rows as [|r0 rows0]; [destruct Hk|].
    set (rows := r0 :: rows0) in *. destruct (psf_kernel d) as [psf|]; cbn [bind] in Hm; [|discriminate].
    destruct (traverse _ (combine _ _)) as [deps|] eqn:T; cbn [bind] in Hm; [|discriminate].
    clear Hm. clear P L HF HN. revert deps T Hk. generalize (combine (seq 0 (len rows)) rows). intros l. induction l as [|a l IH]; intros deps T Hk; [destruct Hk|].
    cbn [traverse] in T. cbv beta in T. destruct (macro_deposits e d (pd_beam pd) (pd_mesh pd) (pd_motion pd) (fst a) (snd a)) as [x|] eqn:E; cbn [bind] in T; [|discriminate].
    destruct (traverse _ l) as [ys|]; cbn [bind] in T; [|discriminate]. destruct Hk as [->|Hk]; [eauto|]. eapply IH; eauto.
Qed.

(** ** The warning *)
Lemma snd_project_io v z d pd fr : snd (project_io v z d pd fr) = project z d pd fr.
Proof. reflexivity. Qed.
Lemma project_quiet z d pd fr : fst (project_io false z d pd fr) = [].
Proof. unfold project_io. cbn [fst]. rewrite andb_false_l, andb_false_r. reflexivity. Qed.

(** ** The whole rendering *)
(** Without verbose mode nothing is printed and nothing else changes. *)
Lemma pC85_quiet : forall arg entry e d pd frames method macro_limit micro_limit,
  permutes (re_argsort e) -> resolve arg entry = false ->
  render_io arg entry e d pd frames method macro_limit micro_limit = ([], render e d pd frames method macro_limit micro_limit).
Proof.
  intros arg entry e d pd frames method mac mic Hp Hv. apply injective_projections; cbn [fst snd].
  - unfold render_io. cbv zeta. rewrite Hv. apply then_quiet; [now rewrite andb_false_r|]. intros _. apply then_quiet; [apply project_quiet|].
    intros out. apply then_quiet; [|reflexivity].
    destruct (String.eqb method "macro"); [apply macro_quiet|]. destruct (String.eqb method "micro"); [apply micro_quiet|].
    destruct (String.eqb method "nano"); [apply nano_quiet|]. destruct (String.eqb method "auto"); [|reflexivity].
    apply then_quiet; [apply macro_quiet|]. intros ma. apply then_quiet; [apply micro_quiet|]. intros mi. apply then_quiet; [apply nano_quiet|]. reflexivity.
  - unfold render_io, render. cbv zeta. rewrite Hv, snd_then. cbn [snd bind]. rewrite snd_then, snd_project_io. destruct (project _ _ _ _) as [out|]; cbn [bind]; auto.
    rewrite snd_then. cbn [done snd].
    destruct (String.eqb method "macro"); [rewrite macro_snd by auto; reflexivity|]. destruct (String.eqb method "micro"); [rewrite micro_snd by auto; reflexivity|].
    destruct (String.eqb method "nano"); [rewrite nano_snd by auto; reflexivity|]. destruct (String.eqb method "auto"); [|reflexivity].
    rewrite snd_then, macro_snd by auto. destruct (macro_method _ _ _ _ _); cbn [bind]; auto.
    rewrite snd_then, micro_snd by auto. destruct (micro_method _ _ _ _); cbn [bind]; auto.
    rewrite snd_then, nano_snd by auto. destruct (nano_method _ _ _ _); reflexivity.
Qed.
Lemma out_small z d pd fr out : project z d pd fr = Ok out -> INR (len (pd_peaks pd)) < 10^18 ->
  forall f, INR (len (filter f (pd_peaks out))) < 10^18 /\ INR (len (pd_peaks out)) < 10^18.
Proof.
  intros H HN f. apply project_inv in H as [H _]. assert (L : (len (pd_peaks out) <= len (pd_peaks pd))%nat).
  { rewrite H, map_length. apply filter_len_le. }
  pose proof (filter_len_le f (pd_peaks out)) as L2. apply le_INR in L, L2. lra.
Qed.
(** With or without verbose mode: the same frames, the same table or the same exception. *)
Lemma pC85_same_result : forall arg entry e d pd frames method macro_limit micro_limit,
  permutes (re_argsort e) -> INR (List.length (pd_peaks pd)) < 10^18 ->
  snd (render_io arg entry e d pd frames method macro_limit micro_limit) = render e d pd frames method macro_limit micro_limit.
Proof.
  intros arg entry e d pd frames method mac mic Hp HN. unfold render_io, render. cbv zeta. rewrite snd_then. cbn [snd bind].
  rewrite snd_then, snd_project_io. destruct (project _ _ _ _) as [out|] eqn:Ho; cbn [bind]; auto.
  pose proof (out_small _ _ _ _ _ Ho HN) as S. rewrite snd_then. cbn [done snd].
  pose proof (proj2 (S (fun _ => true))) as S0.
  destruct (String.eqb method "macro"); [rewrite macro_snd by auto; reflexivity|]. destruct (String.eqb method "micro"); [rewrite micro_snd by auto; reflexivity|].
  destruct (String.eqb method "nano"); [rewrite nano_snd by auto; reflexivity|]. destruct (String.eqb method "auto"); [|reflexivity].
  rewrite snd_then, macro_snd by (right; apply S). destruct (macro_method _ _ _ _ _); cbn [bind]; auto.
  rewrite snd_then, micro_snd by (right; apply S). destruct (micro_method _ _ _ _); cbn [bind]; auto.
  rewrite snd_then, nano_snd by (auto; right; apply S). destruct (nano_method _ _ _ _); reflexivity.
Qed.

Lemma reported_cong log log' n m l : filter is_bar log = filter is_bar log' -> reported log n m l -> reported log' n m l.
Proof. unfold reported. intros ->. auto. Qed.
Definition note (v : bool) (frames : Z) : list output :=
  if ((frames <? 1)%Z && v)%bool then [Line "[Detector.render] frames_to_render < 1, setting to 1"] else [].
Definition clampf (frames : Z) : Z := if (frames <? 1)%Z then 1%Z else frames.
Lemma note_no_bar v f : filter is_bar (note v f) = [].
Proof. unfold note. destruct (_ && _)%bool; reflexivity. Qed.
Lemma warning_no_bar v z d pd fr : filter is_bar (fst (project_io v z d pd fr)) = [].
Proof. unfold project_io. cbn [fst]. destruct (_ && _)%bool; reflexivity. Qed.
Definition body (v : bool) (e : render_env) (d : detector) (out : peaks_dict) (n : nat) (method : string) (mac : option R) (mic : R) : logged frames3 :=
  if String.eqb method "macro" then macro_io v e d out (pd_peaks out) n
  else if String.eqb method "micro" then micro_io v e d (pd_peaks out) n
  else if String.eqb method "nano" then nano_io v e d (pd_peaks out) n
  else if String.eqb method "auto" then
    let mac := match mac with Some x => x | None => default_macro_limit d end in
    and_then (macro_io v e d out (filter (large mac) (pd_peaks out)) n) (fun ma =>
    and_then (micro_io v e d (filter (medium mac mic) (pd_peaks out)) n) (fun mi =>
    and_then (nano_io v e d (filter (small mic) (pd_peaks out)) n) (fun na =>
    done (Ok (add3 (add3 (add3 (zeros3 n (d_nz d) (d_ny d)) na) ma) mi)))))
  else done (Err ValueError).
Lemma io_body arg entry e d pd frames method mac mic im out : snd (render_io arg entry e d pd frames method mac mic) = Ok (im, out) ->
  project (re_z e) d pd (clampf frames) = Ok out /\ snd (body (resolve arg entry) e d out (Z.to_nat (clampf frames)) method mac mic) = Ok im /\
  fst (render_io arg entry e d pd frames method mac mic) =
    note (resolve arg entry) frames ++ fst (project_io (resolve arg entry) (re_z e) d pd (clampf frames)) ++
    fst (body (resolve arg entry) e d out (Z.to_nat (clampf frames)) method mac mic).
Proof.
  unfold render_io. cbv zeta. fold (note (resolve arg entry) frames). fold (clampf frames). set (v := resolve arg entry).
  rewrite snd_then. cbn [snd bind]. rewrite snd_then, snd_project_io. destruct (project _ _ _ _) as [o|] eqn:E; cbn [bind]; [|discriminate].
  fold (body v e d o (Z.to_nat (clampf frames)) method mac mic). rewrite snd_then.
  destruct (snd (body _ _ _ _ _ _ _ _)) as [im0|] eqn:Eb; cbn [bind done snd]; [|discriminate]. intros H.
  assert (im0 = im /\ o = out) as [-> ->] by (split; congruence). split; auto. split; auto.
  rewrite (fst_then _ _ tt) by reflexivity. cbn [fst]. f_equal. rewrite (fst_then _ _ out) by (rewrite snd_project_io; exact E). f_equal.
  fold (body v e d out (Z.to_nat (clampf frames)) method mac mic). rewrite (fst_then _ _ im) by exact Eb. cbn [done fst]. now rewrite app_nil_r.
Qed.
Lemma io_bars arg entry e d pd frames method mac mic im out : snd (render_io arg entry e d pd frames method mac mic) = Ok (im, out) ->
  filter is_bar (fst (render_io arg entry e d pd frames method mac mic)) =
  filter is_bar (fst (body (resolve arg entry) e d out (Z.to_nat (clampf frames)) method mac mic)).
Proof. intros H. apply io_body in H as (_ & _ & ->). now rewrite !filter_app, note_no_bar, warning_no_bar. Qed.
Lemma clampf_pos f : (1 <= clampf f)%Z.
Proof. unfold clampf. destruct (Z.ltb_spec f 1); lia. Qed.

(** The progress bar of the Gaussian method: one bar per batch, at growing numbers of finished peaks,
    the last one at 100 %. *)
Lemma pC85_micro_progress : forall arg entry e d pd frames macro_limit micro_limit im out,
  resolve arg entry = true -> INR (List.length (pd_peaks pd)) < 10^18 ->
  snd (render_io arg entry e d pd frames "micro" macro_limit micro_limit) = Ok (im, out) ->
  micro_reports (fst (render_io arg entry e d pd frames "micro" macro_limit micro_limit)) (List.length (pd_peaks out)).
Proof.
  intros arg entry e d pd frames mac mic im out Hv HN H. pose proof (io_bars _ _ _ _ _ _ _ _ _ _ _ H) as B. pose proof (io_body _ _ _ _ _ _ _ _ _ _ _ H) as (Ho & Hb & _).
  rewrite Hv in *. unfold body in *. cbn [String.eqb Ascii.eqb Bool.eqb] in *. pose proof (proj2 (out_small _ _ _ _ _ Ho HN (fun _ => true))) as S.
  rewrite micro_snd in Hb by auto. destruct (micro_log _ _ _ _ _ S Hb) as (fin & R & P). exists fin. split; auto. eapply reported_cong; [symmetry; exact B|exact P].
Qed.
Lemma pC85_nano_progress : forall arg entry e d pd frames macro_limit micro_limit im out,
  permutes (re_argsort e) -> resolve arg entry = true -> INR (List.length (pd_peaks pd)) < 10^18 ->
  snd (render_io arg entry e d pd frames "nano" macro_limit micro_limit) = Ok (im, out) ->
  nano_reports (fst (render_io arg entry e d pd frames "nano" macro_limit micro_limit)) (List.length (pd_peaks out)).
Proof.
  intros arg entry e d pd frames mac mic im out Hp Hv HN H. pose proof (io_bars _ _ _ _ _ _ _ _ _ _ _ H) as B. pose proof (io_body _ _ _ _ _ _ _ _ _ _ _ H) as (Ho & Hb & _).
  rewrite Hv in *. unfold body in *. cbn [String.eqb Ascii.eqb Bool.eqb] in *. pose proof (proj2 (out_small _ _ _ _ _ Ho HN (fun _ => true))) as S.
  rewrite nano_snd in Hb by auto. destruct (nano_log _ _ _ _ _ Hp S Hb) as (fin & R & P). exists fin. split; auto. eapply reported_cong; [symmetry; exact B|exact P].
Qed.
Lemma pC85_macro_progress : forall arg entry e d pd frames macro_limit micro_limit im out,
  fresh pd -> resolve arg entry = true -> INR (List.length (pd_peaks pd)) < 10^18 ->
  snd (render_io arg entry e d pd frames "macro" macro_limit micro_limit) = Ok (im, out) ->
  macro_reports (fst (render_io arg entry e d pd frames "macro" macro_limit micro_limit)) (List.length (pd_peaks out)).
Proof.
  intros arg entry e d pd frames mac mic im out Hf Hv HN H. pose proof (io_bars _ _ _ _ _ _ _ _ _ _ _ H) as B. pose proof (io_body _ _ _ _ _ _ _ _ _ _ _ H) as (Ho & Hb & _).
  rewrite Hv in *. unfold body in *. cbn [String.eqb Ascii.eqb Bool.eqb] in *. pose proof (proj2 (out_small _ _ _ _ _ Ho HN (fun _ => true))) as S.
  rewrite macro_snd in Hb by auto. destruct (macro_log e d out (pd_peaks out) (Z.to_nat (clampf frames)) im S) as (R & P); auto.
  - intros r Hr. destruct (projected_prow _ _ _ _ _ _ Hf (clampf_pos frames) Ho Hr) as (k & zd & yd & i & P). exists k. split; [eapply pr_frame_lt|eapply pr_frame]; eauto.
  - split; auto. eapply reported_cong; [symmetry; exact B|exact P].
Qed.
(** The automatic method runs the bar once for each class of peaks. *)
Lemma pC85_auto_progress : forall arg entry e d pd frames macro_limit micro_limit im out,
  permutes (re_argsort e) -> fresh pd -> resolve arg entry = true -> INR (List.length (pd_peaks pd)) < 10^18 ->
  snd (render_io arg entry e d pd frames "auto" macro_limit micro_limit) = Ok (im, out) ->
  exists l1 l2 l3 n1 n2 n3,
    filter is_bar (fst (render_io arg entry e d pd frames "auto" macro_limit micro_limit)) = filter is_bar (l1 ++ l2 ++ l3) /\
    macro_reports l1 n1 /\ micro_reports l2 n2 /\ nano_reports l3 n3 /\
    n3 = count (fun r => nlt (ncol r 21) (Fin micro_limit)) (pd_peaks out) /\
    n1 = count (fun r => nle (Fin (match macro_limit with Some x => x | None => default_macro_limit d end)) (ncol r 21)) (pd_peaks out) /\
    n2 = count (fun r => negb (nle (Fin (match macro_limit with Some x => x | None => default_macro_limit d end)) (ncol r 21)) &&
                         negb (nlt (ncol r 21) (Fin micro_limit)))%bool (pd_peaks out).
Proof.
  intros arg entry e d pd frames mac mic im out Hp Hf Hv HN H. pose proof (io_bars _ _ _ _ _ _ _ _ _ _ _ H) as B. pose proof (io_body _ _ _ _ _ _ _ _ _ _ _ H) as (Ho & Hb & _).
  rewrite Hv in *. unfold body in *. cbn [String.eqb Ascii.eqb Bool.eqb] in *. cbv zeta in *. set (m := match mac with Some x => x | None => _ end) in *.
  pose proof (fun f => proj1 (out_small _ _ _ _ _ Ho HN f)) as S. set (n := Z.to_nat (clampf frames)) in *.
  rewrite snd_then, macro_snd in Hb by auto. destruct (macro_method _ _ _ _ _) as [ma|] eqn:E1; cbn [bind] in Hb; [|discriminate].
  rewrite snd_then, micro_snd in Hb by auto. destruct (micro_method _ _ _ _) as [mi|] eqn:E2; cbn [bind] in Hb; [|discriminate].
  rewrite snd_then, nano_snd in Hb by auto. destruct (nano_method _ _ _ _) as [na|] eqn:E3; cbn [bind] in Hb; [|discriminate].
  rewrite (fst_then _ _ ma) in B by (rewrite macro_snd; auto).
  rewrite (fst_then _ _ mi) in B by (rewrite micro_snd; auto).
  rewrite (fst_then _ _ na) in B by (rewrite nano_snd; auto). cbn [done fst] in B. rewrite app_nil_r in B.
  do 6 eexists. split; [exact B|]. split; [eapply macro_log; eauto|].
  - intros r Hr. apply filter_In in Hr as [Hr _]. destruct (projected_prow _ _ _ _ _ _ Hf (clampf_pos frames) Ho Hr) as (k & zd & yd & i & P). exists k. split; [eapply pr_frame_lt|eapply pr_frame]; eauto.
  - split; [eapply micro_log; eauto|]. split; [eapply nano_log; eauto|]. split; [reflexivity|]. split; reflexivity.
Qed.

(** ** Warning and note *)
Lemma then_forall {A B} (P : output -> Prop) (x : logged A) (k : A -> logged B) : Forall P (fst x) -> (forall a, Forall P (fst (k a))) -> Forall P (fst (and_then x k)).
Proof. intros H K. unfold and_then. destruct (snd x); cbn [fst]; auto. apply Forall_app. auto. Qed.
Definition plain (o : output) : Prop := is_warning o = false /\ is_line o = false.
Lemma progress_plain v f m : Forall plain (fst (progress v f m)).
Proof. unfold progress, print_progress. destruct v; [|constructor]. destruct (_ <=? _)%nat; repeat constructor. Qed.
Lemma g_plain v d n nb bs : forall k s im, Forall plain (fst (g_loop_io v d n nb k s im bs)).
Proof. induction bs as [|b bs IH]; intros k s im; cbn [g_loop_io]; [constructor|]. apply then_forall; [apply progress_plain|]. intros _. apply then_forall; [constructor|]. auto. Qed.
Lemma note_plain v z d b : Forall plain (radius_note v z d b).
Proof. unfold radius_note. cbv zeta. destruct (_ && _)%bool; repeat constructor. Qed.
Lemma a_plain v z j1 d psf fr n bs : forall k s im, Forall plain (fst (airy_loop_io v z j1 d psf fr n k s im bs)).
Proof. induction bs as [|b bs IH]; intros k s im; cbn [airy_loop_io]; [constructor|]. apply then_forall; [apply note_plain|]. intros ?. apply then_forall; [apply progress_plain|]. auto. Qed.
Lemma nano_plain v e d rows fr : Forall plain (fst (nano_io v e d rows fr)).
Proof.
  unfold nano_io. cbv zeta. destruct rows as [|r rows']; [constructor|]. apply then_forall; [constructor|]. intros psf. apply then_forall; [constructor|]. intros sorted.
  destruct (airy_batches _ _ _ _); [|constructor]. apply then_forall; [apply a_plain|constructor].
Qed.
Lemma macro_bars_plain v e d b me m n l : forall k, Forall plain (fst (macro_bars v e d b me m n k l)).
Proof. induction l as [|kr l IH]; intros k; cbn [macro_bars]; [constructor|]. apply then_forall; [apply progress_plain|]. intros _. apply then_forall; [constructor|]. auto. Qed.
Lemma body_plain v e d out n method mac mic : Forall plain (fst (body v e d out n method mac mic)).
Proof.
  unfold body. destruct (String.eqb method "macro"); [apply macro_bars_plain|]. destruct (String.eqb method "micro"); [apply g_plain|].
  destruct (String.eqb method "nano"); [apply nano_plain|]. destruct (String.eqb method "auto"); [|constructor]. cbv zeta.
  apply then_forall; [apply macro_bars_plain|]. intros ?. apply then_forall; [apply g_plain|]. intros ?. apply then_forall; [apply nano_plain|]. constructor.
Qed.
Lemma plain_filter l : Forall plain l -> filter is_warning l = [] /\ filter is_line l = [].
Proof. induction 1 as [|o l [H1 H2] _ [I1 I2]]; [split; reflexivity|]. cbn [filter]. now rewrite H1, H2. Qed.
Lemma io_log arg entry e d pd frames method mac mic : exists tail, Forall plain tail /\
  fst (render_io arg entry e d pd frames method mac mic) =
    note (resolve arg entry) frames ++ fst (project_io (resolve arg entry) (re_z e) d pd (clampf frames)) ++ tail.
Proof.
  unfold render_io. cbv zeta. fold (note (resolve arg entry) frames). fold (clampf frames). set (v := resolve arg entry).
  rewrite (fst_then _ _ tt) by reflexivity. cbn [fst]. destruct (snd (project_io v (re_z e) d pd (clampf frames))) as [out|] eqn:E.
  - eexists. split; [|f_equal; rewrite (fst_then _ _ out) by exact E; reflexivity].
    apply then_forall; [apply body_plain|constructor].
  - exists []. split; [constructor|]. f_equal. unfold and_then. rewrite E. cbn [fst]. now rewrite app_nil_r.
Qed.
(** The line about the number of frames is printed exactly in verbose mode with a number below one. *)
Lemma pC85_note : forall arg entry e d pd frames method macro_limit micro_limit,
  let lines := filter is_line (fst (render_io arg entry e d pd frames method macro_limit micro_limit)) in
  (resolve arg entry = true /\ (frames < 1)%Z -> lines = [Line "[Detector.render] frames_to_render < 1, setting to 1"]) /\
  (resolve arg entry = false \/ (1 <= frames)%Z -> lines = []).
Proof.
  intros arg entry e d pd frames method mac mic. cbv zeta. destruct (io_log arg entry e d pd frames method mac mic) as (tail & P & ->).
  apply plain_filter in P as [_ P]. rewrite !filter_app, P, app_nil_r.
  assert (W : filter is_line (fst (project_io (resolve arg entry) (re_z e) d pd (clampf frames))) = []).
  { unfold project_io. cbn [fst]. destruct (_ && _)%bool; reflexivity. }
  rewrite W, app_nil_r. unfold note. split.
  - intros [-> H]. apply Z.ltb_lt in H. rewrite H. reflexivity.
  - intros [->|H]; [now rewrite andb_false_r|]. apply Z.ltb_ge in H. now rewrite H.
Qed.
(** verbose: the argument counts, else the entry of the dictionary, else yes. *)
Lemma pC85_resolve : forall arg entry, resolve arg entry = true <->
  (arg = Some true \/ arg = None /\ (entry = Some true \/ entry = None)).
Proof. intros [[|]|] [[|]|]; cbn; split; intuition; discriminate. Qed.

Lemma count_map {A B} (g : A -> B) f l : count f (map g l) = count (fun x => f (g x)) l.
Proof. unfold count. induction l as [|a l IH]; cbn [map filter]; auto. destruct (f (g a)); cbn [len]; auto. Qed.
Lemma count_ext {A} (f g : A -> bool) l : (forall x, In x l -> f x = g x) -> count f l = count g l.
Proof. intros H. unfold count. f_equal. now apply filter_ext_in. Qed.
Lemma count_split {A} (f : A -> bool) l : (count f l + count (fun x => negb (f x)) l)%nat = len l.
Proof. unfold count. induction l as [|a l IH]; auto. cbn [filter]. destruct (f a); cbn [negb len]; lia. Qed.
Lemma count_3 {A} (f g h k : A -> bool) l : (forall x, In x l -> (if f x then 1 else 0) = (if g x then 1 else 0) + (if h x then 1 else 0) + (if k x then 1 else 0))%nat ->
  count f l = (count g l + count h l + count k l)%nat.
Proof.
  unfold count. induction l as [|a l IH]; intros H; auto. specialize (IH (fun x Hx => H x (or_intror Hx))). specialize (H a (or_introl eq_refl)).
  cbn [filter]. destruct (f a), (g a), (h a), (k a); cbn [len]; lia.
Qed.
Lemma count_pos {A} (f : A -> bool) l : existsb f l = true <-> (0 < count f l)%nat.
Proof.
  unfold count. induction l as [|a l IH]; cbn [existsb filter]; [split; [discriminate|cbn; lia]|]. destruct (f a); cbn [orb len]; [split; [lia|auto]|auto].
Qed.
Lemma col29 z d fr r : len r = 25%nat -> ncol (extend z d fr r) 29 = intensity d r.
Proof.
  intros H. rewrite extend_eq by lia. destruct (get_intersection _ _ _ _) as [[zd yd] a]. rewrite ncol_app_r by lia. rewrite H. reflexivity.
Qed.
Lemma valid29 z d fr r : len r = 25%nat -> valid_intensity (extend z d fr r) = (is_finite (intensity d r) && nlt (Fin 0) (intensity d r))%bool.
Proof. intros H. unfold valid_intensity. now rewrite col29. Qed.
(** The warning: at most one, exactly when peaks that reach the detector are dropped, with their number and
    the numbers of infinite, non-positive and undefined intensities, which add up to it. *)
Lemma pC85_warning : forall arg entry e d pd frames method macro_limit micro_limit im out,
  fresh pd -> resolve arg entry = true ->
  snd (render_io arg entry e d pd frames method macro_limit micro_limit) = Ok (im, out) ->
  let reached := on_detector (re_z e) d pd in
  let warnings := filter is_warning (fst (render_io arg entry e d pd frames method macro_limit micro_limit)) in
  (List.length (pd_peaks out) <= List.length reached)%nat /\
  (List.length (pd_peaks out) = List.length reached -> warnings = []) /\
  ((List.length (pd_peaks out) < List.length reached)%nat -> exists infinite non_positive nan,
     warnings = [Invalid (List.length reached - List.length (pd_peaks out)) infinite non_positive nan] /\
     infinite = count (fun r => is_inf (intensity d r)) reached /\
     non_positive = count (fun r => match intensity d r with Fin x => Rleb x 0 | _ => false end) reached /\
     nan = count (fun r => is_nan (intensity d r)) reached /\
     (List.length reached - List.length (pd_peaks out) = infinite + non_positive + nan)%nat).
Proof.
  intros arg entry e d pd frames method mac mic im out Hf Hv H. cbv zeta. pose proof (io_body _ _ _ _ _ _ _ _ _ _ _ H) as (Ho & _ & _). clear H.
  destruct (io_log arg entry e d pd frames method mac mic) as (tail & P & ->). apply plain_filter in P as [P _]. rewrite !filter_app, P, app_nil_r, Hv.
  assert (N : filter is_warning (note true frames) = []) by (unfold note; destruct (_ && _)%bool; reflexivity). rewrite N. cbn [app]. clear N P tail.
  set (fr := clampf frames) in *. set (reached := on_detector (re_z e) d pd).
  destruct Hf as [_ Hl]. rewrite Forall_forall in Hl.
  assert (HR : forall r, In r reached -> len r = 25%nat) by (intros r Hr; apply filter_In in Hr as [Hr _]; auto).
  set (good := fun r => (is_finite (intensity d r) && nlt (Fin 0) (intensity d r))%bool).
  assert (EO : len (pd_peaks out) = count good reached).
  { apply project_inv in Ho as [-> _]. rewrite map_length. unfold keepb, count, reached, on_detector. f_equal. clear HR. induction (pd_peaks pd) as [|r l IH]; auto.
    assert (IH' := IH (fun x Hx => Hl x (or_intror Hx))). cbn [filter]. rewrite valid29 by (apply Hl; now left). destruct (hit_mask d (add_hit (re_z e) d r)); cbn [andb filter]; auto.
    fold (good r). destruct (good r); [f_equal|]; auto. }
  assert (EB : (len reached - len (pd_peaks out))%nat = count (fun r => negb (good r)) reached) by (pose proof (count_split good reached); lia).
  assert (LE : (len (pd_peaks out) <= len reached)%nat) by (pose proof (count_split good reached); lia).
  assert (FB : forallb (fun r => (25 <=? len r)%nat) (pd_peaks pd) = true).
  { apply forallb_forall. intros r Hr. apply Nat.leb_le. rewrite Hl; auto. }
  unfold project_io. cbn [fst]. rewrite FB. cbn [andb].
  assert (RR : map (fun r => add_intensity d (add_frame fr r)) (filter (hit_mask d) (map (add_hit (re_z e) d) (pd_peaks pd))) = map (extend (re_z e) d fr) reached).
  { unfold reached, on_detector, extend. rewrite filter_map, map_map. reflexivity. }
  rewrite RR.
  assert (EX : existsb (fun r => negb (valid_intensity r)) (map (extend (re_z e) d fr) reached) = true <-> (0 < count (fun r => negb (good r)) reached)%nat).
  { rewrite count_pos, count_map. rewrite (count_ext _ (fun r => negb (good r))); [reflexivity|]. intros r Hr. rewrite valid29 by auto. reflexivity. }
  split; [exact LE|]. split.
  - intros E. assert (Z : count (fun r => negb (good r)) reached = 0%nat) by lia. destruct (existsb _ _); [|reflexivity].
    rewrite Z in EX. assert (0 < 0)%nat by (now apply EX). lia.
  - intros L. assert (G : (0 < count (fun r => negb (good r)) reached)%nat) by lia. apply EX in G. rewrite G.
    exists (count (fun r => is_inf (intensity d r)) reached), (count (fun r => match intensity d r with Fin x => Rleb x 0 | _ => false end) reached), (count (fun r => is_nan (intensity d r)) reached).
    split; [|split; [reflexivity|split; [reflexivity|split; [reflexivity|]]]].
    + unfold invalid_report. cbn [filter is_warning]. rewrite !count_map. rewrite EB. f_equal. f_equal; apply count_ext; intros r Hr; rewrite ?valid29, ?col29 by auto; try reflexivity.
      destruct (intensity d r); cbn [nle is_inf negb]; try reflexivity. now rewrite andb_true_r.
    + rewrite EB. apply count_3. intros r _. unfold good. destruct (intensity d r) as [x| | |]; cbn; auto.
      unfold Rltb, Rleb. destruct (Rlt_dec 0 x), (Rle_dec x 0); cbn; auto; lra.
Qed.

(** Two peaks reach the detector and one of them has no intensity: one bar, one warning, one line. *)
Lemma xC85_warned : exists e d pd im out, built d /\ fresh pd /\ permutes (re_argsort e) /\ INR (List.length (pd_peaks pd)) < 10^18 /\
  resolve None None = true /\ snd (render_io None None e d pd 0 "micro" None 1) = Ok (im, out) /\
  List.length (pd_peaks out) = 1%nat /\ List.length (on_detector (re_z e) d pd) = 2%nat.
Proof.
  destruct ex_world as (me & b & _). pose (e := ex_env 0 (fun _ => 0) (fun l => seq 0 (List.length l))).
  pose (d := flat 10 1 9 0 (2/100) 2). pose (ss := [Spot 4 4 (1/4) 1 1 0; Spot 5 4 (1/4) 0 1 0]). exists e, d, (spot_table ss me b).
  assert (Hp : permutes (re_argsort e)) by (intros l; apply Permutation_refl).
  assert (HN : INR (len (pd_peaks (spot_table ss me b))) < 10^18) by (cbn; lra).
  destruct (pC39_micro_never_fails e d (spot_table ss me b) 0 None 1 (spot_fresh _ _ _)) as (im & out & H).
  exists im, out. split; [apply flat_built; [lra|lia]|]. split; [apply spot_fresh|]. split; auto. split; auto. split; auto.
  split; [rewrite pC85_same_result; auto|].
  assert (HIT : forall s, 0 <= s_y s <= 9 -> 0 <= s_h s <= 9 -> hit_mask d (add_hit (re_z e) d (spot_row s)) = true).
  { intros s Hy Hh. unfold add_hit, hit_mask. change (get_intersection _ _ _ _) with (get_intersection false (flat 10 1 9 0 (2/100) 2) (row_nvec (spot_row s) 13) (row_nvec (spot_row s) 16)).
    pose proof (flat_hit false 10 1 9 0 (2/100) 2 (s_y s) (s_h s) ltac:(lra) ltac:(lra)) as E.
    change (row_nvec (spot_row s) 13) with (nfin (V3 1 0 0)). change (row_nvec (spot_row s) 16) with (nfin (V3 0 (s_y s) (s_h s))).
    rewrite E. rewrite !ncol_app_r by (cbn; lia). cbn [spot_row map len Nat.sub ncol nth]. unfold det_contains. cbn [d flat d_zmax d_ymax nle nlt].
    repeat match goal with |- context[Rleb ?a ?b] => replace (Rleb a b) with true by (symmetry; apply Rleb_true; lra) end. reflexivity. }
  apply pC36_dictionary in H. pose proof (project_inv _ _ _ _ _ H) as (-> & _). rewrite map_length. split.
  - unfold spot_table, ex_table. cbn [pd_peaks ss map filter].
    assert (K0 : keepb (re_z e) d (Z.max 1 0) (spot_row (Spot 4 4 (1/4) 1 1 0)) = true) by (apply flat_extend; try lra; unfold good_spot; cbn; lra).
    assert (K1 : keepb (re_z e) d (Z.max 1 0) (spot_row (Spot 5 4 (1/4) 0 1 0)) = false).
    { unfold keepb. rewrite valid29 by reflexivity. unfold intensity. cbn [d flat d_structure d_polarization d_lorentz]. unfold ncol, spot_row. cbn [nth map nmul s_sf].
      cbv beta iota zeta. cbn [is_finite nlt andb]. replace (Rltb _ _) with false by (symmetry; apply Rltb_false; lra). now rewrite andb_false_r. }
    rewrite K0, K1. reflexivity.
  - unfold on_detector, spot_table, ex_table. cbn [pd_peaks ss map filter]. rewrite !HIT by (cbn; lra). reflexivity.
Qed.
