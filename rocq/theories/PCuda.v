(** * Properties of the device selection (C62). *)
From Verif Require Import Num MCuda SCuda.
From Coq Require Import String Ascii.
Open Scope string_scope.

Lemma space_lower c : is_space (lower_char c) = is_space c.
Proof. destruct c as [[] [] [] [] [] [] [] []]; reflexivity. Qed.
Lemma lower_app a b : lower (a ++ b) = lower a ++ lower b.
Proof. induction a as [|c a IH]; cbn; [reflexivity|]. now rewrite IH. Qed.
Fixpoint iblank (s : string) : Prop := match s with EmptyString => True | String c r => is_space c = true /\ iblank r end.
Definition imeans (s t : string) : Prop := exists a m b, s = a ++ m ++ b /\ iblank a /\ iblank b /\ lower m = t.
Lemma iblank_lower a : iblank (lower a) <-> iblank a.
Proof. induction a as [|c a IH]; cbn; [tauto|]. now rewrite space_lower, IH. Qed.
Lemma lstrip_blank a s : iblank a -> lstrip (a ++ s) = lstrip s.
Proof. induction a as [|c a IH]; cbn; auto. intros [-> H]. auto. Qed.
Lemma rstrip_all b : iblank b -> rstrip b = EmptyString.
Proof. induction b as [|c b IH]; cbn; auto. intros [-> H]. now rewrite IH. Qed.
Lemma rstrip_blank s b : iblank b -> rstrip (s ++ b) = rstrip s.
Proof. intros H. induction s as [|c s IH]; cbn; [now apply rstrip_all|]. now rewrite IH. Qed.
Lemma lstrip_split s : exists a, iblank a /\ s = a ++ lstrip s.
Proof.
  induction s as [|c s IH]; [exists EmptyString; split; cbn; auto|]. cbn [lstrip]. destruct (is_space c) eqn:E; [|exists EmptyString; cbn; auto].
  destruct IH as (a & Ha & IH). exists (String c a). cbn. split; auto. now rewrite IH at 1.
Qed.
Lemma rstrip_split s : exists b, iblank b /\ s = rstrip s ++ b.
Proof.
  induction s as [|c s IH]; [exists EmptyString; split; cbn; auto|]. destruct IH as (b & Hb & IH). cbn [rstrip]. destruct (rstrip s) as [|c' r].
  - cbn in IH. subst b. destruct (is_space c) eqn:E; [exists (String c s); cbn; auto|exists s; cbn; auto].
  - exists b. split; auto. cbn in *. now rewrite IH at 1.
Qed.
(** A word that starts and ends with a non-iblank character is kept. *)
Definition solid (t : string) : Prop := strip t = t /\ t <> EmptyString.
Lemma app_assoc_s a b c : (a ++ b) ++ c = a ++ b ++ c.
Proof. induction a; cbn; congruence. Qed.
Lemma strip_padded a t b : iblank a -> iblank b -> strip (a ++ t ++ b) = strip t.
Proof.
  intros Ha Hb. unfold strip. rewrite lstrip_blank by auto. clear Ha a. induction t as [|c t IH]; cbn.
  - destruct (lstrip_split b) as (a' & Ha' & E). assert (iblank (lstrip b)). { clear -Hb. induction b as [|c b IH]; cbn in *; auto. destruct Hb as [-> H]. auto. } now rewrite rstrip_all.
  - destruct (is_space c); auto. change (String c (t ++ b)) with (String c t ++ b). now apply rstrip_blank.
Qed.
Lemma lower_split s a m b : lower s = a ++ m ++ b -> exists a' m' b', s = a' ++ m' ++ b' /\ lower a' = a /\ lower m' = m /\ lower b' = b.
Proof.
  assert (G : forall s x y, lower s = x ++ y -> exists x' y', s = x' ++ y' /\ lower x' = x /\ lower y' = y).
  { clear. induction s as [|c s IH]; intros x y H; cbn in H.
    - exists EmptyString, EmptyString. destruct x; cbn in *; [now subst y|discriminate].
    - destruct x as [|c' x]; cbn in H; [exists EmptyString, (String c s); cbn; auto|]. inversion H. destruct (IH x y) as (x' & y' & -> & E1 & E2); auto. exists (String c x'), y'. cbn. subst x y. auto. }
  intros H. destruct (G _ _ _ H) as (a' & r & -> & Ea & Er). destruct (G _ _ _ Er) as (m' & b' & -> & Em & Eb). exists a', m', b'. auto.
Qed.
Lemma imeans_strip s t : strip t = t -> (strip (lower s) = t <-> imeans s t).
Proof.
  intros Ht. split.
  - intros H. destruct (lstrip_split (lower s)) as (a & Ha & E1). destruct (rstrip_split (lstrip (lower s))) as (b & Hb & E2).
    fold (strip (lower s)) in E2. rewrite H in E2. rewrite E2 in E1. destruct (lower_split _ _ _ _ E1) as (a' & m & b' & -> & E3 & E4 & E5). exists a', m, b'. subst. repeat split; auto; now apply iblank_lower.
  - intros (a & m & b & -> & Ha & Hb & <-). rewrite !lower_app. rewrite strip_padded by now apply iblank_lower. exact Ht.
Qed.
Lemma space_char c : is_space c = true <-> blank_char c.
Proof.
  unfold blank_char, is_space. cbv zeta. rewrite !Bool.orb_true_iff, !Bool.andb_true_iff, Nat.eqb_eq, !Nat.leb_le. cbn [In]. lia.
Qed.
Lemma blank_iblank s : blank s <-> iblank s.
Proof. induction s as [|c s IH]; cbn; [tauto|]. now rewrite space_char, IH. Qed.
Definition small (c : ascii) : Prop := (97 <= nat_of_ascii c <= 122)%nat.
Fixpoint all_small (s : string) : Prop := match s with EmptyString => True | String c r => small c /\ all_small r end.
Lemma ascii_inj c c' : nat_of_ascii c = nat_of_ascii c' -> c = c'.
Proof. intros H. rewrite <- (ascii_nat_embedding c), <- (ascii_nat_embedding c'). now rewrite H. Qed.
Lemma lower_small c c' : small c' -> (lower_char c = c' <-> c = c' \/ (nat_of_ascii c + 32 = nat_of_ascii c')%nat).
Proof.
  unfold small, lower_char. intros H. destruct (Nat.leb_spec 65 (nat_of_ascii c)) as [A|A], (Nat.leb_spec (nat_of_ascii c) 90) as [B|B]; cbn [andb].
  - assert (E : nat_of_ascii (ascii_of_nat (nat_of_ascii c + 32)) = (nat_of_ascii c + 32)%nat) by (apply nat_ascii_embedding; lia).
    split; [intros <-; right; now rewrite E|]. intros [-> |G]; [lia|]. apply ascii_inj. lia.
  - split; [auto|]. intros [|G]; auto. lia.
  - split; [auto|]. intros [|G]; auto. lia.
  - split; [auto|]. intros [|G]; auto. lia.
Qed.
Lemma same_lower m t : all_small t -> (lower m = t <-> same_word m t).
Proof.
  revert t. induction m as [|c m IH]; intros [|c' t]; cbn [lower same_word all_small]; intros H; try (split; [discriminate|contradiction]); try tauto.
  destruct H as [H1 H2]. rewrite <- (IH t H2), <- (lower_small c c' H1). split; [intros E; inversion E; auto|intros [-> ->]; reflexivity].
Qed.
Lemma means_imeans s t : all_small t -> (means s t <-> imeans s t).
Proof.
  intros H. unfold means, imeans. split; intros (a & m & b & E & A & B & M); exists a, m, b; repeat split; auto; try (now apply blank_iblank); now apply (same_lower m t H).
Qed.
Definition plain (t : string) : Prop := strip t = t /\ all_small t.
Lemma plain_words : plain "auto" /\ plain "gpu" /\ plain "cuda" /\ plain "cpu".
Proof. unfold plain, small. cbn. unfold small. cbn. repeat split; lia. Qed.
Lemma means_strip s t : plain t -> (strip (lower s) = t <-> means s t).
Proof. intros [H1 H2]. rewrite (means_imeans s t H2). now apply imeans_strip. Qed.
Lemma asks_unique arg w w' : asks arg w -> asks arg w' -> w = w'.
Proof.
  intros H H'. inversion H; subst; inversion H'; subst; auto; repeat match goal with H : _ \/ _ |- _ => destruct H end;
  repeat match goal with H : means ?s ?t |- _ => apply (proj2 (means_strip s t ltac:(apply plain_words))) in H end; congruence.
Qed.
Lemma configure_spec av arg v st :
  (exists w lines, asks arg w /\ configure_device av arg v st = Ok (device_for av w, Dev (device_for av w) (device_for av w), lines) /\ lines = (if v then reported av w else []))
  \/ ((forall w, ~ asks arg w) /\ configure_device av arg v st = Err ValueError).
Proof.
  unfold configure_device. destruct arg as [s|]; cbn [option_map].
  - destruct (String.eqb_spec (strip (lower s)) "auto") as [E|N1].
    { left. exists None. apply means_strip in E; [|apply plain_words]. destruct av, v; cbn; eexists; (split; [now constructor|split; reflexivity]). }
    destruct (String.eqb_spec (strip (lower s)) "gpu") as [E|N2].
    { left. exists (Some true). apply means_strip in E; [|apply plain_words]. destruct av, v; cbn; eexists; (split; [now constructor; left|split; reflexivity]). }
    destruct (String.eqb_spec (strip (lower s)) "cuda") as [E|N3].
    { left. exists (Some true). apply means_strip in E; [|apply plain_words]. destruct av, v; cbn; eexists; (split; [now constructor; right|split; reflexivity]). }
    destruct (String.eqb_spec (strip (lower s)) "cpu") as [E|N4].
    { left. exists (Some false). apply means_strip in E; [|apply plain_words]. destruct av, v; cbn; eexists; (split; [now constructor|split; reflexivity]). }
    right. split; [|reflexivity]. intros w H. inversion H as [|? M|? M|? M]; subst; [|destruct M as [M|M]|]; apply means_strip in M; try apply plain_words; contradiction.
  - left. exists None. destruct av, v; cbn; eexists; (split; [constructor|split; reflexivity]).
Qed.
(** An understood argument selects, and makes torch's default, the device it asks for when
    present and the CPU otherwise, whatever was selected before; a verbose call says which, and
    warns when a requested GPU is missing; a quiet one prints nothing. *)
Lemma pC62_selects : forall available argument wish verbose st, asks argument wish ->
  configure_device available argument verbose st
    = Ok (device_for available wish, Dev (device_for available wish) (device_for available wish),
          if verbose then reported available wish else []).
Proof.
  intros av arg w v st H. destruct (configure_spec av arg v st) as [(w' & lines & A & B & C)|[N _]]; [|destruct (N w H)].
  rewrite (asks_unique _ _ _ H A). now subst lines.
Qed.
(** Anything else raises ValueError. *)
Lemma pC62_rejects : forall available argument verbose st, (forall wish, ~ asks argument wish) -> configure_device available argument verbose st = Err ValueError.
Proof. intros av arg v st H. destruct (configure_spec av arg v st) as [(w & _ & A & _)|[_ E]]; auto. destruct (H w A). Qed.
(** After any history the last understood call alone decides; without one it is the CPU. *)
Lemma pC62_last_call : forall before c after wish, asks (argument_of c) wish ->
  (forall c' wish', In c' after -> ~ asks (argument_of c') wish') ->
  get_selected_device (history (before ++ c :: after)) = device_for (available_in c) wish.
Proof.
  intros before c after w H N. unfold history. rewrite fold_left_app. cbn [fold_left]. set (st := fold_left step before initial).
  assert (E : step st c = Dev (device_for (available_in c) w) (device_for (available_in c) w)).
  { destruct c as [[av arg] v]. cbn [step argument_of available_in fst snd] in *. now rewrite (pC62_selects av arg w v st H). }
  rewrite E. clear E st. set (st := Dev _ _). change (device_for (available_in c) w) with (get_selected_device st) at 1. f_equal. clearbody st.
  induction after as [|c' cs IH]; cbn [fold_left]; auto.
  assert (E : step st c' = st). { destruct c' as [[av arg] v]. cbn [step]. rewrite pC62_rejects; auto. intros w'. apply (N (av, arg, v) w'). now left. }
  rewrite E. apply IH. intros x w' Hx. apply N. now right.
Qed.
Lemma pC62_no_call : forall calls, (forall c wish, In c calls -> ~ asks (argument_of c) wish) -> get_selected_device (history calls) = "cpu".
Proof.
  intros cs N. unfold history. enough (fold_left step cs initial = initial) as -> by reflexivity. generalize initial. induction cs as [|c cs IH]; intros st; cbn [fold_left]; auto.
  assert (E : step st c = st). { destruct c as [[av arg] v]. cbn [step]. rewrite pC62_rejects; auto. intros w. apply (N (av, arg, v) w). now left. }
  rewrite E. apply IH. intros x w Hx. apply N. now right.
Qed.
(** Torch's default device never differs from the selected one; the GPU is selected only if
    it was present when selected. *)
Lemma pC62_consistent : forall calls, torch_default (history calls) = get_selected_device (history calls) /\
  (get_selected_device (history calls) = "cpu" \/ get_selected_device (history calls) = "cuda" /\ exists c, In c calls /\ available_in c = true).
Proof.
  intros cs. unfold history. rewrite <- (fold_left_rev_right (fun y x => step x y)). set (r := rev cs).
  assert (G : forall l, let st := fold_right (fun y x => step x y) initial l in torch_default st = get_selected_device st /\ (get_selected_device st = "cpu" \/ get_selected_device st = "cuda" /\ exists c, In c l /\ available_in c = true)).
  { induction l as [|c l IH]; cbn [fold_right]; [cbn; auto|]. cbv zeta in *. set (st := fold_right _ _ _) in *. clearbody st. destruct c as [[av arg] v]. cbn [step].
    destruct (configure_spec av arg v st) as [(w & ls & A & -> & _)|[_ ->]].
    - cbn [torch_default get_selected_device selected]. split; auto. destruct av; [|left; now destruct w as [[]|]]. destruct w as [[]|]; cbn; auto; right; split; auto; exists (true, arg, v); auto.
    - destruct IH as [I1 [I2|(I2 & c & I3 & I4)]]; split; auto. right. split; auto. exists c. split; auto. now right. }
  destruct (G r) as [A [B|(B & c & C & D)]]; split; auto. right. split; auto. exists c. split; auto. now apply in_rev.
Qed.
(** Capitals and blanks do not matter: " GPU " asks for the GPU; "gpus" is not understood. *)
Lemma xC62_words : asks (Some " GPU ") (Some true) /\ (forall w, ~ asks (Some "gpus") w) /\ device_for false (Some true) = "cpu".
Proof.
  split; [|split; [|reflexivity]].
  - constructor. left. exists " ", "GPU", " ". cbn. unfold blank_char. cbn. repeat split; auto 12.
  - intros w H. inversion H as [|? M|? M|? M]; subst; [|destruct M as [M|M]|]; apply means_strip in M; try apply plain_words; discriminate.
Qed.
