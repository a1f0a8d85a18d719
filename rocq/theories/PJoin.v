(** * Proofs: the peaks of two samples in the same beam (C90). *)
From Verif Require Import Vec Spec MMotion PMotion MLaue PLaue MMesh SMesh PMesh MScattering SScattering PScattering.
From Verif Require Import MStrain SStrain PStrain MBeam SBeam PBeam MPolycrystal SPolycrystal SEvents PPolycrystal PPolycrystal2 PPolycrystal3 PEvents.
From Verif Require Import PEnd SJoin.
From Coq Require Import Permutation.
Open Scope list_scope. Open Scope R_scope.
Local Notation len := List.length.

(** ** Labels of the peaks of a table, for any motion *)
Definition lab_cand (p : polycrystal) (b : beam) (m : motion) (sel : num * num -> num) (l : lab) : Prop :=
  exists ph, nth_error (pc_phases p) (l_i l) = Some ph /\ lab_ok p ph l /\ 0 <= l_t l <= 1 /\
    sel (laue_candidates (laue_factors (b_wave_vector b) (m_axis m)) (m_angle m) (l_G l)) = Fin (l_t l).
Lemma rows_lists p b m rows : rows10 p (pc_phases p) (laue_factors (b_wave_vector b) (m_axis m)) (m_angle m) = Ok rows -> exists L1 L2,
  Permutation rows (map lrow (L1 ++ L2)) /\ NoDup L1 /\ NoDup L2 /\
  (forall l, In l L1 <-> lab_cand p b m fst l) /\ (forall l, In l L2 <-> lab_cand p b m snd l).
Proof.
  intros E1. unfold rows10 in E1. destruct (traverse _ _) as [parts|] eqn:ET; cbn [bind] in E1; [|discriminate]. apply ok_inj in E1.
  assert (NX : NoDup (map fst (combine (seq 0 (len (pc_phases p))) (pc_phases p)))).
  { assert (G : forall (l : list phase) s, map fst (combine (seq s (len l)) l) = seq s (len l)) by (induction l; intros; cbn; congruence).
    rewrite G. apply seq_NoDup. }
  destruct (phases_labels _ _ _ _ NX _ ET) as (L1 & L2 & P & N1 & N2 & I1 & I2).
  assert (S : forall sel l, lab_sel p (laue_factors (b_wave_vector b) (m_axis m)) (m_angle m) sel (combine (seq 0 (len (pc_phases p))) (pc_phases p)) l <-> lab_cand p b m sel l).
  { intros sel l. unfold lab_sel, lab_cand. split; intros (ph & H1 & H2 & H3); exists ph; [apply combine_seq_in in H1|apply combine_seq_in in H1].
    - apply in_unit_spec in H3. tauto.
    - split; auto. split; auto. apply in_unit_spec. tauto. }
  exists L1, L2. rewrite <- E1. split; [exact P|]. split; auto. split; auto. split; intros l; [rewrite I1|rewrite I2]; apply S.
Qed.

(** ** Joining *)
Definition sh (n : nat) (l : lab) : lab := Lab (l_i l) (n + l_e l) (l_j l) (l_h l) (l_sf l) (l_t l) (l_G l).
Lemma sh_inj n l l' : sh n l = sh n l' -> l = l'.
Proof.
  intros H. assert (E : l_e l = l_e l') by (apply (f_equal l_e) in H; cbn [sh l_e] in H; lia).
  destruct l as [a1 a2 a3 a4 a5 a6 a7], l' as [c1 c2 c3 c4 c5 c6 c7]. unfold sh in H. cbn [l_i l_e l_j l_h l_sf l_t l_G] in *. congruence.
Qed.
(** what the peaks depend on *)
Definition joined' (n : nat) (p1 p2 p : polycrystal) : Prop :=
  pc_U p = pc_U p1 ++ pc_U p2 /\ pc_eB p = pc_eB p1 ++ pc_eB p2 /\
  map_values (pc_map p) = map_values (pc_map p1) ++ map_values (pc_map p2) /\
  pc_phases p1 = pc_phases p /\ pc_phases p2 = pc_phases p /\
  len (pc_U p1) = n /\ len (pc_eB p1) = n /\ len (map_values (pc_map p1)) = n.
Lemma nth_app_r {A} (l m : list A) k : nth_error (l ++ m) (len l + k) = nth_error m k.
Proof. rewrite nth_error_app2 by lia. f_equal. lia. Qed.
Lemma lab_ok_l n p1 p2 p ph l : joined' n p1 p2 p -> (l_e l < n)%nat -> lab_ok p ph l <-> lab_ok p1 ph l.
Proof.
  intros (J1 & J2 & J3 & _ & _ & L1 & L2 & L3) Hl. unfold lab_ok, in_phase, scattering_vector. rewrite J1, J2, J3.
  rewrite !nth_error_app1 by lia. tauto.
Qed.
Lemma lab_ok_r n p1 p2 p ph l : joined' n p1 p2 p -> lab_ok p ph (sh n l) <-> lab_ok p2 ph l.
Proof.
  intros (J1 & J2 & J3 & _ & _ & L1 & L2 & L3). unfold lab_ok, in_phase, scattering_vector, sh. cbn [l_i l_e l_j l_h l_sf l_t l_G]. rewrite J1, J2, J3.
  assert (E1 : nth_error (pc_U p1 ++ pc_U p2) (n + l_e l) = nth_error (pc_U p2) (l_e l)) by (rewrite <- L1; apply nth_app_r).
  assert (E2 : nth_error (pc_eB p1 ++ pc_eB p2) (n + l_e l) = nth_error (pc_eB p2) (l_e l)) by (rewrite <- L2; apply nth_app_r).
  assert (E3 : nth_error (map_values (pc_map p1) ++ map_values (pc_map p2)) (n + l_e l) = nth_error (map_values (pc_map p2)) (l_e l)) by (rewrite <- L3; apply nth_app_r).
  rewrite E1, E2, E3. tauto.
Qed.
Lemma cand_join n p1 p2 p b m sel l : joined' n p1 p2 p ->
  lab_cand p b m sel l <-> lab_cand p1 b m sel l \/ exists l', lab_cand p2 b m sel l' /\ l = sh n l'.
Proof.
  intros J. pose proof J as (J1 & J2 & J3 & J4 & J5 & L1 & L2 & L3). unfold lab_cand. rewrite J4, J5. split.
  - intros (ph & H1 & H2 & H3). destruct (Nat.lt_ge_cases (l_e l) n) as [Hl|Hl].
    + left. exists ph. split; auto. split; auto. apply (lab_ok_l n p1 p2 p ph l J Hl); auto.
    + right. set (l' := Lab (l_i l) (l_e l - n) (l_j l) (l_h l) (l_sf l) (l_t l) (l_G l)).
      assert (E : l = sh n l') by (unfold sh, l'; cbn [l_i l_e l_j l_h l_sf l_t l_G]; replace (n + (l_e l - n))%nat with (l_e l) by lia; destruct l; reflexivity).
      exists l'. split; auto. exists ph. split; [exact H1|]. split; [|exact H3]. rewrite E in H2. apply (lab_ok_r n p1 p2 p ph l' J). exact H2.
  - intros [(ph & H1 & H2 & H3)|(l' & (ph & H1 & H2 & H3) & ->)]; exists ph; (split; [exact H1|]; split; [|exact H3]).
    + apply (lab_ok_l n p1 p2 p ph l J); auto. destruct H2 as (H2 & _). unfold in_phase in H2. apply nth_error_lt' in H2. lia.
    + apply (lab_ok_r n p1 p2 p ph l' J). exact H2.
Qed.
Lemma cand_bound n p1 p2 p b m sel l : joined' n p1 p2 p -> lab_cand p1 b m sel l -> (l_e l < n)%nat.
Proof. intros (_ & _ & _ & _ & _ & _ & _ & L) (ph & _ & (H & _) & _). unfold in_phase in H. apply nth_error_lt' in H. lia. Qed.
Lemma join_lists n p1 p2 p b m sel A B C : joined' n p1 p2 p -> NoDup A -> NoDup B -> NoDup C ->
  (forall l, In l A <-> lab_cand p1 b m sel l) -> (forall l, In l B <-> lab_cand p2 b m sel l) -> (forall l, In l C <-> lab_cand p b m sel l) ->
  Permutation C (A ++ map (sh n) B).
Proof.
  intros J NA NB NC IA IB IC. apply NoDup_Permutation; auto.
  - apply NoDup_app; auto.
    + apply (nodup_key (sh n) (fun l => l)); [now rewrite map_id|]. intros l l' _ _. apply sh_inj.
    + intros l H1 H2. apply IA in H1. apply (cand_bound _ _ _ _ _ _ _ _ J) in H1. apply in_map_iff in H2 as (l' & <- & _). cbn [sh l_e] in H1. lia.
  - intros l. rewrite IC, (cand_join n p1 p2 p b m sel l J), in_app_iff, IA, in_map_iff. split; (intros [H|(l' & H1 & H2)]; [now left|right; exists l'; first [split; [now symmetry|now apply IB]|split; [now apply IB|now symmetry]]]).
Qed.
Lemma rows_join n p1 p2 p b m rows1 rows2 rows : joined' n p1 p2 p ->
  rows10 p1 (pc_phases p1) (laue_factors (b_wave_vector b) (m_axis m)) (m_angle m) = Ok rows1 ->
  rows10 p2 (pc_phases p2) (laue_factors (b_wave_vector b) (m_axis m)) (m_angle m) = Ok rows2 ->
  rows10 p (pc_phases p) (laue_factors (b_wave_vector b) (m_axis m)) (m_angle m) = Ok rows ->
  exists A B, Permutation rows1 (map lrow A) /\ Permutation rows2 (map lrow B) /\ Permutation rows (map lrow (A ++ map (sh n) B)) /\
    (forall l, In l A -> (l_e l < n)%nat).
Proof.
  intros J H1 H2 H. destruct (rows_lists _ _ _ _ H1) as (A1 & A2 & PA & NA1 & NA2 & IA1 & IA2).
  destruct (rows_lists _ _ _ _ H2) as (B1 & B2 & PB & NB1 & NB2 & IB1 & IB2). destruct (rows_lists _ _ _ _ H) as (C1 & C2 & PC & NC1 & NC2 & IC1 & IC2).
  exists (A1 ++ A2), (B1 ++ B2). split; auto. split; auto. split.
  - rewrite PC. apply Permutation_map. rewrite (join_lists n p1 p2 p b m fst A1 B1 C1), (join_lists n p1 p2 p b m snd A2 B2 C2) by auto.
    rewrite map_app, <- !app_assoc. apply Permutation_app_head. rewrite !app_assoc. apply Permutation_app_tail. apply Permutation_app_comm.
  - intros l Hl. apply in_app_or in Hl as [Hl|Hl]; [apply IA1 in Hl|apply IA2 in Hl]; eapply cand_bound; eauto.
Qed.

(** ** The complete rows *)
Lemma full_rows z p b m rows cents vols : gather (me_espherecentroids (pc_mesh_lab p)) (map grain_of rows) = Ok cents ->
  gather (pc_volumes p) (map grain_of rows) = Ok vols ->
  map (fun t => full_row z b m (fst (fst t)) (snd (fst t)) (snd t)) (zip3 rows cents vols) =
  map (fun r => full_row z b m r (nth (grain_of r) (me_espherecentroids (pc_mesh_lab p)) vzero) (nth (grain_of r) (pc_volumes p) 0)) rows.
Proof.
  intros E2 E3. apply (gather_map _ vzero) in E2. apply (gather_map _ 0) in E3. rewrite E2, E3, !map_map. unfold zip3. clear.
  induction rows as [|r rows IH]; [reflexivity|]. cbn [map combine fst snd]. now rewrite IH.
Qed.
Lemma full24_of z p b m l : full_row z b m (lrow l) (nth (grain_of (lrow l)) (me_espherecentroids (pc_mesh_lab p)) vzero) (nth (grain_of (lrow l)) (pc_volumes p) 0) = full24 z p b m l.
Proof. unfold full24, lrow. now rewrite grain_of_row10. Qed.
Lemma full24_l z p1 p b m l v2 c2 : pc_volumes p = pc_volumes p1 ++ v2 ->
  me_espherecentroids (pc_mesh_lab p) = me_espherecentroids (pc_mesh_lab p1) ++ c2 ->
  (l_e l < len (pc_volumes p1))%nat -> (l_e l < len (me_espherecentroids (pc_mesh_lab p1)))%nat -> full24 z p b m l = full24 z p1 b m l.
Proof. intros E1 E2 H1 H2. unfold full24. now rewrite E1, E2, !app_nth1 by auto. Qed.
(** a row of the second sample with its element number shifted *)
Definition bump (n : nat) (r : list num) : list num := match r with Fin g :: rest => Fin (INR n + g) :: rest | _ => r end.
Lemma full24_r z n p1 p2 p b m l : pc_volumes p = pc_volumes p1 ++ pc_volumes p2 ->
  me_espherecentroids (pc_mesh_lab p) = me_espherecentroids (pc_mesh_lab p1) ++ me_espherecentroids (pc_mesh_lab p2) ->
  len (pc_volumes p1) = n -> len (me_espherecentroids (pc_mesh_lab p1)) = n -> full24 z p b m (sh n l) = bump n (full24 z p2 b m l).
Proof.
  intros E1 E2 H1 H2. unfold full24. rewrite E1, E2. cbn [sh l_e]. rewrite !app_nth2 by lia. rewrite H1, H2. replace (n + l_e l - n)%nat with (l_e l) by lia.
  unfold full_row, lrow, sh. cbv zeta. cbn [l_i l_e l_j l_h l_sf l_t l_G]. rewrite !rvec_row10. unfold row10, row24, bump. cbn [map app].
  rewrite plus_INR. reflexivity.
Qed.
Lemma full24_head z p b m l : exists rest, full24 z p b m l = Fin (INR (l_e l)) :: rest /\ len rest = 23%nat.
Proof. unfold full24, full_row, lrow, row10, row24. cbv zeta. cbn [map app]. eexists. split; reflexivity. Qed.
Lemma bump_lit b n r : illuminated b (bump n r) = illuminated b r.
Proof. destruct r as [|[g| | |] rest]; reflexivity. Qed.
