(** * Proofs: renumbering the elements and phases of a sample (C91). *)
From Verif Require Import Vec Spec MMotion PMotion MLaue PLaue MMesh SMesh PMesh MScattering SScattering PScattering.
From Verif Require Import MStrain SStrain PStrain MBeam SBeam PBeam MPolycrystal SPolycrystal SEvents PPolycrystal PPolycrystal2 PPolycrystal3 PEvents.
From Verif Require Import PEnd SJoin PJoin PJoin2 SNumber.
From Coq Require Import Permutation FinFun.
Open Scope list_scope. Open Scope R_scope.
Local Notation len := List.length.

(** ** Numbers *)
Lemma numbers_onto n s : new_numbers n s -> exists g, new_numbers n g /\ forall k, (k < n)%nat -> g (s k) = k /\ s (g k) = k.
Proof.
  intros [H1 H2]. assert (B : bSurjective n s) by (apply bInjective_bSurjective; [exact H1|]; intros a c Ha Hc; now apply H2).
  destruct (bSurjective_bBijective H1 B) as (g & G1 & G2). exists g. split; [|exact G2]. split; [exact G1|].
  intros a c Ha Hc E. destruct (G2 a Ha) as [_ E1]. destruct (G2 c Hc) as [_ E2]. rewrite E, E2 in E1. auto.
Qed.
Lemma rearranged_map {A B} (f : A -> B) s l l' : rearranged s l l' -> rearranged s (map f l) (map f l').
Proof. intros [H1 H2]. split; [now rewrite !map_length|]. intros e He. rewrite map_length in He. now rewrite !nth_error_map, H2. Qed.
Lemma rearranged_inv {A} s g (l l' : list A) : new_numbers (len l) s -> new_numbers (len l) g -> (forall k, (k < len l)%nat -> g (s k) = k /\ s (g k) = k) ->
  rearranged s l l' -> rearranged g l' l.
Proof.
  intros [N1 _] [N2 _] G [H1 H2]. split; [auto|]. intros e He. rewrite H1 in He. destruct (G e He) as [_ E]. rewrite <- E at 2. symmetry. apply H2. auto.
Qed.
Lemma rearranged_nth {A} (dft : A) s l l' e : rearranged s l l' -> (e < len l)%nat -> nth (s e) l' dft = nth e l dft.
Proof. intros [_ H] He. specialize (H e He). destruct (nth_error l e) as [a|] eqn:E; [|apply nth_error_None in E; lia]. now rewrite (nth_error_nth _ _ dft H), (nth_error_nth _ _ dft E). Qed.
Lemma numbers_perm n s : new_numbers n s -> Permutation (map s (seq 0 n)) (seq 0 n).
Proof.
  intros [H1 H2]. apply NoDup_Permutation_bis.
  - apply (nodup_key s (fun k => k)); [rewrite map_id; apply seq_NoDup|]. intros a c Ha Hc. apply in_seq in Ha, Hc. apply H2; lia.
  - now rewrite map_length.
  - intros k Hk. apply in_map_iff in Hk as (a & <- & Ha). apply in_seq in Ha. apply in_seq. specialize (H1 a). lia.
Qed.
Lemma map_nth_seq {A} (d : A) (l : list A) : map (fun k => nth k l d) (seq 0 (len l)) = l.
Proof.
  induction l as [|a l IH]; [reflexivity|]. cbn [List.length seq map nth]. f_equal. rewrite <- seq_shift, map_map. exact IH.
Qed.
Lemma rearranged_perm {A} s (l l' : list A) : new_numbers (len l) s -> rearranged s l l' -> Permutation l l'.
Proof.
  intros N H. destruct l as [|d l0]; [destruct l'; [constructor|destruct H as [H _]; discriminate]|]. set (l := d :: l0) in *. clearbody l.
  symmetry. rewrite <- (map_nth_seq d l'). destruct H as [H1 H2]. rewrite H1. transitivity (map (fun k => nth k l' d) (map s (seq 0 (len l)))); [apply Permutation_map; symmetry; now apply numbers_perm|].
  rewrite map_map. rewrite <- (map_nth_seq d l) at 2.
  replace (map (fun x => nth (s x) l' d) (seq 0 (len l))) with (map (fun k => nth k l d) (seq 0 (len l))); [reflexivity|].
  apply map_ext_in. intros k Hk. apply in_seq in Hk. symmetry. apply rearranged_nth; [split; auto|lia].
Qed.
(** a renumbering can be undone *)
Lemma renumbered_inv s u p q x : wf x p -> renumbered s u p q -> exists s' u', renumbered s' u' q p.
Proof.
  intros (W1 & _ & W3 & W4 & _) (N1 & N2 & H1 & H2 & H3 & H4 & H5 & H6 & H7 & l & l' & M1 & M2 & L1 & L2 & M3).
  destruct (numbers_onto _ _ N1) as (g & G1 & G2). destruct (numbers_onto _ _ N2) as (k & K1 & K2). exists g, k.
  assert (E1 : len (pc_volumes q) = len (pc_volumes p)) by apply H1. assert (E2 : len (pc_phases q) = len (pc_phases p)) by apply H5.
  unfold renumbered. rewrite E1, E2. split; [auto|]. split; [auto|].
  split; [apply (rearranged_inv s g); auto|]. split; [apply (rearranged_inv s g); rewrite ?W1; auto|]. split; [apply (rearranged_inv s g); rewrite ?W3; auto|].
  split; [apply (rearranged_inv s g); rewrite ?W4; auto|]. split; [apply (rearranged_inv u k); auto|]. split; [now symmetry|]. split; [now symmetry|].
  exists l', l. split; [auto|]. split; [auto|]. split; [auto|]. split; [auto|]. intros e i He Hi.
  destruct (G2 e He) as [_ Ge]. destruct (K2 i Hi) as [_ Ki]. rewrite <- Ge at 1. rewrite <- Ki at 1. symmetry. apply M3; [apply G1|apply K1]; auto.
Qed.
Lemma renumbered_setup s u p q x b lo hi : renumbered s u p q -> renumbered s u (setup_all x p b lo hi) (setup_all x q b lo hi).
Proof.
  intros (N1 & N2 & H1 & H2 & H3 & H4 & H5 & H6 & H7 & l & l' & M). unfold renumbered, setup_all. cbn [pc_volumes pc_U pc_eB pc_mesh_lab pc_phases pc_map].
  rewrite map_length. repeat (split; [assumption|]). split; [now apply rearranged_map|]. split; [auto|]. split; [auto|]. exists l, l'. exact M.
Qed.

(** ** Labels *)
Definition rl (s u : nat -> nat) (l : lab) : lab := Lab (u (l_i l)) (s (l_e l)) (l_j l) (l_h l) (l_sf l) (l_t l) (l_G l).
Definition small (p : polycrystal) (l : lab) : Prop := (l_e l < len (pc_volumes p))%nat /\ (l_i l < len (pc_phases p))%nat.
Lemma cand_small x p b m sel l : wf x p -> lab_cand p b m sel l -> small p l.
Proof.
  intros (_ & _ & _ & _ & W & _) (ph & H & (H1 & _) & _). apply nth_error_lt' in H. split; auto. exact (W _ _ H1 H).
Qed.
Lemma rl_inj s u p l l' : new_numbers (len (pc_volumes p)) s -> new_numbers (len (pc_phases p)) u -> small p l -> small p l' -> rl s u l = rl s u l' -> l = l'.
Proof.
  intros [_ N1] [_ N2] [S1 S2] [S3 S4] H. pose proof (f_equal l_i H) as E1. pose proof (f_equal l_e H) as E2. cbn [rl l_i l_e] in E1, E2. apply N2 in E1; auto. apply N1 in E2; auto.
  destruct l as [a1 a2 a3 a4 a5 a6 a7], l' as [c1 c2 c3 c4 c5 c6 c7]. unfold rl in H. cbn [l_i l_e l_j l_h l_sf l_t l_G] in *. congruence.
Qed.
Lemma lab_ok_rl s u p q ph l x : wf x p -> renumbered s u p q -> small p l -> lab_ok q ph (rl s u l) <-> lab_ok p ph l.
Proof.
  intros (W1 & _ & W3 & _) (N1 & N2 & H1 & (_ & H2) & (_ & H3) & H4 & H5 & H6 & H7 & m & m' & M1 & M2 & L1 & L2 & M3) [S1 S2]. unfold lab_ok, in_phase, scattering_vector, rl. cbn [l_i l_e l_j l_h l_sf l_t l_G].
  rewrite M1, M2. cbn [map_values]. rewrite H2, H3 by lia. rewrite (M3 (l_e l) (l_i l)) by auto. tauto.
Qed.
Lemma cand_rl s u p q b m sel l x : wf x p -> renumbered s u p q -> small p l -> lab_cand q b m sel (rl s u l) <-> lab_cand p b m sel l.
Proof.
  intros W HR S. unfold lab_cand. pose proof HR as (_ & _ & _ & _ & _ & _ & (_ & H5) & _). cbn [rl l_i l_t l_G]. rewrite H5 by apply S.
  split; intros (ph & E1 & E2 & E3); exists ph; (split; [exact E1|]; split; [|exact E3]); [apply (lab_ok_rl s u p q ph l x W HR S)|apply (lab_ok_rl s u p q ph l x W HR S)]; exact E2.
Qed.
Lemma number_lists s u p q b m sel x A C : wf x p -> renumbered s u p q -> NoDup A -> NoDup C ->
  (forall l, In l A <-> lab_cand p b m sel l) -> (forall l, In l C <-> lab_cand q b m sel l) -> Permutation C (map (rl s u) A).
Proof.
  intros W HR NA NC IA IC. pose proof HR as (N1 & N2 & H1 & _ & _ & _ & H5 & _ & _ & mm & mm' & M1 & M2 & L1 & L2 & M3). apply NoDup_Permutation; auto.
  - apply (nodup_key (rl s u) (fun l => l)); [now rewrite map_id|]. intros l l' Hl Hl'. apply IA in Hl, Hl'. apply (rl_inj s u p); auto; eapply cand_small; eauto.
  - intros l. rewrite IC, in_map_iff. split.
    + intros Hc. assert (Sq : (l_e l < len (pc_volumes p))%nat /\ (l_i l < len (pc_phases p))%nat).
      { destruct Hc as (ph & H & (H2 & _) & _). apply nth_error_lt' in H. destruct H5 as [H5 _]. rewrite H5 in H. split; auto. unfold in_phase in H2. rewrite M2 in H2. cbn [map_values] in H2. apply nth_error_lt' in H2. lia. }
      destruct Sq as [S1 S2]. destruct (numbers_onto _ _ N1) as (g & [G1 _] & G2). destruct (numbers_onto _ _ N2) as (k & [K1 _] & K2).
      set (l0 := Lab (k (l_i l)) (g (l_e l)) (l_j l) (l_h l) (l_sf l) (l_t l) (l_G l)).
      assert (E : rl s u l0 = l). { unfold rl, l0. cbn [l_i l_e l_j l_h l_sf l_t l_G]. destruct (G2 _ S1) as [_ ->]. destruct (K2 _ S2) as [_ ->]. destruct l; reflexivity. }
      exists l0. split; [exact E|]. apply IA. rewrite <- E in Hc. apply (cand_rl s u p q b m sel l0 x W HR) in Hc; auto. split; cbn [l0 l_e l_i]; auto.
    + intros (l0 & <- & Hl). apply IA in Hl. apply (cand_rl s u p q b m sel l0 x W HR); auto. eapply cand_small; eauto.
Qed.
Lemma rows_number s u p q b m rows rows' x : wf x p -> renumbered s u p q ->
  rows10 p (pc_phases p) (laue_factors (b_wave_vector b) (m_axis m)) (m_angle m) = Ok rows ->
  rows10 q (pc_phases q) (laue_factors (b_wave_vector b) (m_axis m)) (m_angle m) = Ok rows' ->
  exists A, Permutation rows (map lrow A) /\ Permutation rows' (map lrow (map (rl s u) A)) /\ (forall l, In l A -> small p l).
Proof.
  intros W HR H1 H2. destruct (rows_lists _ _ _ _ H1) as (A1 & A2 & PA & NA1 & NA2 & IA1 & IA2).
  destruct (rows_lists _ _ _ _ H2) as (C1 & C2 & PC & NC1 & NC2 & IC1 & IC2). exists (A1 ++ A2). split; auto. split.
  - rewrite PC. apply Permutation_map. rewrite map_app. apply Permutation_app; eapply number_lists; eauto.
  - intros l Hl. apply in_app_or in Hl as [Hl|Hl]; [apply IA1 in Hl|apply IA2 in Hl]; eapply cand_small; eauto.
Qed.

(** ** The two calls *)
Lemma map_full z q b m rows cents vols L : gather (me_espherecentroids (pc_mesh_lab q)) (map grain_of rows) = Ok cents -> gather (pc_volumes q) (map grain_of rows) = Ok vols ->
  Permutation rows (map lrow L) -> Permutation (map (fun t => full_row z b m (fst (fst t)) (snd (fst t)) (snd t)) (zip3 rows cents vols)) (map (full24 z q b m) L).
Proof.
  intros G1 G2 PP. rewrite (full_rows z q b m rows cents vols G1 G2), PP, map_map.
  replace (map (full24 z q b m) L) with (map (fun l => full_row z b m (lrow l) (nth (grain_of (lrow l)) (me_espherecentroids (pc_mesh_lab q)) vzero) (nth (grain_of (lrow l)) (pc_volumes q) 0)) L); [reflexivity|].
  apply map_ext. intros l. apply full24_of.
Qed.
Lemma wf_setup x p b lo hi : wf x p -> wf x (setup_all x p b lo hi).
Proof.
  intros (W1 & W2 & W3 & W4 & W5 & W6). unfold wf, setup_all. cbn [pc_U pc_eps pc_eB pc_map pc_phases pc_volumes pc_mesh_lab]. cbv zeta. rewrite map_length. repeat (split; [assumption|]).
  apply Forall_forall. intros ph Hin. apply in_map_iff in Hin as (ph0 & <- & Hin). constructor. eapply Forall_forall in W6; eauto.
Qed.
Lemma rearranged_in {A} s (l l' : list A) : new_numbers (len l) s -> rearranged s l l' -> forall a, In a l' -> In a l.
Proof. intros N H a Ha. apply (Permutation_in a (Permutation_sym (rearranged_perm s l l' N H))). exact Ha. Qed.
Lemma compute_number z s u p q b m x out : wf x p -> renumbered s u p q -> compute_peaks z p (pc_phases p) b m = Ok out ->
  exists A out', compute_peaks z q (pc_phases q) b m = Ok out' /\ Permutation out (map (full24 z p b m) A) /\
    Permutation out' (map (full24 z q b m) (map (rl s u) A)) /\ (forall l, In l A -> small p l).
Proof.
  intros W HR C. apply compute_peaks_inv in C as (rows & cents & vols & A1 & A2 & A3 & A4 & A5).
  pose proof HR as (N1 & N2 & H1 & H2 & H3 & H4 & H5 & H6 & H7 & l & l' & M1 & M2 & L1 & L2 & M3). pose proof W as (W1 & W2 & W3 & W4 & W5 & W6).
  set (qq := PC (pc_volumes q) (pc_U q) (pc_U q) (pc_map q) (pc_phases q) (pc_eB q) (pc_mesh_lab q) (pc_mesh_sample q) (pc_eps_sample q) (pc_U_sample q)).
  assert (LV : len (pc_volumes q) = len (pc_volumes p)) by apply H1. assert (LC : len (me_espherecentroids (pc_mesh_lab q)) = len (pc_volumes q)) by (rewrite LV, <- W4; apply H4).
  assert (LU : len (pc_U q) = len (pc_volumes q)) by (rewrite LV, <- W1; apply H2). assert (LB : len (pc_eB q) = len (pc_volumes q)) by (rewrite LV, <- W3; apply H3).
  assert (WQ : wf x qq).
  { unfold wf, qq. cbn [pc_U pc_eps pc_eB pc_map pc_phases pc_volumes pc_mesh_lab]. cbv zeta. split; [exact LU|]. split; [exact LU|]. split; [exact LB|]. split; [exact LC|]. split.
    - intros e i He _. unfold in_phase in He. cbn [pc_map] in He. rewrite M2 in He. cbn [map_values] in He. apply nth_error_lt' in He. lia.
    - apply Forall_forall. intros ph Hin. apply (rearranged_in u (pc_phases p)) in Hin; auto. eapply Forall_forall in W6; eauto. }
  destruct (rows10_total x qq (pc_phases q) (laue_factors (b_wave_vector b) (m_axis m)) (m_angle m) l' WQ M2 eq_refl) as (rows' & K1).
  { intros ph Hin. apply (rearranged_in u (pc_phases p)) in Hin; auto. exact (rows10_used _ _ _ _ _ _ A1 Hin). }
  change (rows10 qq (pc_phases q) (laue_factors (b_wave_vector b) (m_axis m)) (m_angle m)) with (rows10 q (pc_phases q) (laue_factors (b_wave_vector b) (m_axis m)) (m_angle m)) in K1.
  destruct (rows_number s u p q b m rows rows' x W HR A1 K1) as (A & P1 & P2 & HA).
  assert (G : forall r, In r rows' -> (grain_of r < len (pc_volumes q))%nat).
  { intros r Hr. apply (rows10_in _ _ _ _ _ r K1) in Hr as (i & ph & Hi & e & h & sf & t & G0 & He & _ & _ & _ & ->).
    rewrite grain_of_row10. destruct WQ as (_ & _ & _ & _ & W5' & _). apply (W5' e i); auto. apply nth_error_lt' in Hi. exact Hi. }
  destruct (gather_total (me_espherecentroids (pc_mesh_lab q)) (map grain_of rows')) as (cents' & K2).
  { intros g Hg. apply in_map_iff in Hg as (r & <- & Hr). rewrite LC. auto. }
  destruct (gather_total (pc_volumes q) (map grain_of rows')) as (vols' & K3).
  { intros g Hg. apply in_map_iff in Hg as (r & <- & Hr). auto. }
  pose proof (compute_peaks_rows z q (pc_phases q) b m rows' cents' vols' K1 K2 K3) as K4.
  assert (LR : len rows' = len rows) by (apply Permutation_length in P1, P2; rewrite P1, P2, !map_length; reflexivity).
  rewrite LR in K4. replace (Nat.eqb (len rows) 1) with false in K4 by (symmetry; apply Nat.eqb_neq; lia).
  exists A. eexists. split; [exact K4|]. split; [rewrite A5; now apply map_full|]. split; [now apply map_full|exact HA].
Qed.
