(** * Proofs: tables and pictures of two samples in the same beam (C90). *)
From Verif Require Import Vec Spec MMotion PMotion MLaue PLaue MMesh SMesh PMesh MScattering SScattering PScattering.
From Verif Require Import MStrain SStrain PStrain MBeam SBeam PBeam MPolycrystal SPolycrystal SEvents PPolycrystal PPolycrystal2 PPolycrystal3 PEvents.
From Verif Require Import MDetector SDetector PDetector PDetector2 PDetector3 PDetector4 MClip MRender SRender PRender PRender2 SEnd PEnd PEnd2 SJoin PJoin.
From Coq Require Import Permutation.
Open Scope list_scope. Open Scope R_scope.
Local Notation len := List.length.

Definition setup_all (x : xtal) (p : polycrystal) (b : beam) (lo hi : R) : polycrystal :=
  PC (pc_volumes p) (pc_U p) (pc_eps p) (pc_map p) (map (fun ph => setup_planes x ph (b_wavelength b) lo hi) (pc_phases p)) (pc_eB p)
     (pc_mesh_lab p) (pc_mesh_sample p) (pc_eps_sample p) (pc_U_sample p).
Lemma diffract_none z x p b m lo hi : diffract z x p b m lo hi None =
  (let p' := setup_all x p b lo hi in
   (let* rows := compute_peaks z p' (pc_phases p') b m in
    Ok (PD (mapi (fun i r => r ++ [Fin (INR i)]) (filter (illuminated b) rows)) column_names
              (b_wave_vector b) (b_wavelength b) (m_axis m) (pc_mesh_lab p) m b), p')).
Proof. reflexivity. Qed.
Lemma rows10_used p phs rho dw rows ph : rows10 p phs rho dw = Ok rows -> In ph phs -> exists planes, used_planes ph = Ok planes.
Proof.
  unfold rows10. intros H Hin. destruct (traverse _ _) as [parts|] eqn:E; [|discriminate]. apply traverse_spec in E.
  apply In_nth_error in Hin as (i & Hi). assert (Hc : In (i, ph) (combine (seq 0 (len phs)) phs)) by now apply combine_seq_in.
  destruct (Forall2_in_l _ _ _ _ E Hc) as (rs & _ & Hr). cbn [fst snd] in Hr. unfold phase_rows in Hr.
  destruct (pc_map p); [discriminate|]. destruct (used_planes ph) as [pl|]; [eauto|discriminate].
Qed.
Lemma forall2_mapi {A B} (F : nat -> A -> B) l : Forall2 (fun x y => exists k, y = F k x) l (mapi F l).
Proof. unfold mapi. generalize 0%nat. induction l as [|x l IH]; intros k; constructor; eauto. Qed.
Lemma forall2_mapi2 {A B C} (P : A -> B -> Prop) (F : nat -> A -> C) l m : Forall2 P l m ->
  Forall2 (fun c y => exists x k, P x y /\ c = F k x) (mapi F l) m.
Proof. unfold mapi. intros H. generalize 0%nat. induction H as [|x y l m Hxy H IH]; intros k; constructor; eauto. Qed.
Lemma F2_app_split {A B} (P : A -> B -> Prop) l1 l2 m : Forall2 P (l1 ++ l2) m -> exists m1 m2, m = m1 ++ m2 /\ Forall2 P l1 m1 /\ Forall2 P l2 m2.
Proof. intros H. apply Forall2_app_inv_l in H as (m1 & m2 & H1 & H2 & ->). eauto. Qed.
Lemma perm_filter {A} (f : A -> bool) l m : Permutation l m -> Permutation (filter f l) (filter f m).
Proof.
  intros HP. induction HP; cbn [filter]; auto; [destruct (f x); auto|destruct (f x), (f y); auto; constructor|etransitivity; eauto].
Qed.
Lemma filter_bump b n L : filter (illuminated b) (map (bump n) L) = map (bump n) (filter (illuminated b) L).
Proof. induction L as [|r L IH]; [reflexivity|]. cbn [map filter]. rewrite bump_lit. destruct (illuminated b r); cbn [map]; now rewrite IH. Qed.

Lemma Forall2_impl' {A B} (P Q : A -> B -> Prop) l m : (forall a c, P a c -> Q a c) -> Forall2 P l m -> Forall2 Q l m.
Proof. intros H F. induction F; constructor; auto. Qed.

(** ** Everything about the three calls *)
Lemma join_calls z x p1 p2 p b m lo hi pd1 pd2 s1 s2 : reachable_pc x p1 -> reachable_pc x p2 -> joined p1 p2 p ->
  diffract z x p1 b m lo hi None = (Ok pd1, s1) -> diffract z x p2 b m lo hi None = (Ok pd2, s2) ->
  let n := len (pc_volumes p1) in exists A B pd out1 out2 out,
    diffract z x p b m lo hi None = (Ok pd, setup_all x p b lo hi) /\ s1 = setup_all x p1 b lo hi /\ s2 = setup_all x p2 b lo hi /\
    pd_peaks pd1 = mapi (fun i r => r ++ [Fin (INR i)]) (filter (illuminated b) out1) /\
    pd_peaks pd2 = mapi (fun i r => r ++ [Fin (INR i)]) (filter (illuminated b) out2) /\
    pd_peaks pd = mapi (fun i r => r ++ [Fin (INR i)]) (filter (illuminated b) out) /\
    pd_columns pd1 = column_names /\ pd_columns pd2 = column_names /\ pd_columns pd = column_names /\
    Permutation out1 (map (full24 z s1 b m) A) /\ Permutation out2 (map (full24 z s2 b m) B) /\
    Permutation out (map (full24 z (setup_all x p b lo hi) b m) (A ++ map (sh n) B)) /\
    (forall l, In l A -> (l_e l < n)%nat) /\ len (me_espherecentroids (pc_mesh_lab p1)) = n.
Proof.
  intros R1 R2 J D1 D2 n. destruct (wf_reachable _ _ R1) as (W11 & W12 & W13 & W14 & W15 & W16). destruct (wf_reachable _ _ R2) as (W21 & W22 & W23 & W24 & W25 & W26).
  destruct J as (J1 & J2 & J3 & J4 & (l1 & l2 & J5 & J6 & J7 & J8 & J9) & J10 & J11).
  rewrite diffract_none in D1, D2. cbv zeta in D1, D2.
  pose proof (f_equal snd D1) as E1. pose proof (f_equal snd D2) as E2. pose proof (f_equal fst D1) as F1. pose proof (f_equal fst D2) as F2. clear D1 D2. cbn [fst snd] in *. subst s1 s2.
  set (q1 := setup_all x p1 b lo hi) in *. set (q2 := setup_all x p2 b lo hi) in *. set (q := setup_all x p b lo hi) in *.
  destruct (compute_peaks z q1 _ b m) as [out1|] eqn:C1; cbn [bind] in F1; [|discriminate]. destruct (compute_peaks z q2 _ b m) as [out2|] eqn:C2; cbn [bind] in F2; [|discriminate].
  apply ok_inj in F1. apply ok_inj in F2.
  apply compute_peaks_inv in C1 as (rows1 & cents1 & vols1 & A1 & A2 & A3 & A4 & A5). apply compute_peaks_inv in C2 as (rows2 & cents2 & vols2 & B1 & B2 & B3 & B4 & B5).
  assert (J' : joined' n q1 q2 q).
  { unfold joined', q1, q2, q, setup_all. cbn [pc_U pc_eB pc_map pc_phases]. rewrite J5, J6, J7, J10, J11. cbn [map_values]. unfold n. auto 10. }
  set (qq := PC (pc_volumes q) (pc_U q) (pc_U q) (pc_map q) (pc_phases q) (pc_eB q) (pc_mesh_lab q) (pc_mesh_sample q) (pc_eps_sample q) (pc_U_sample q)).
  assert (LN : len (pc_volumes q) = (len (pc_volumes p1) + len (pc_volumes p2))%nat) by (unfold q, setup_all; cbn [pc_volumes]; now rewrite J3, app_length).
  assert (LC : len (me_espherecentroids (pc_mesh_lab q)) = len (pc_volumes q)) by (rewrite LN; unfold q, setup_all; cbn [pc_mesh_lab]; rewrite J4, app_length; lia).
  assert (WQ : wf x qq).
  { unfold wf, qq. cbn [pc_U pc_eps pc_eB pc_map pc_phases pc_volumes pc_mesh_lab]. cbv zeta.
    assert (LU : len (pc_U q) = len (pc_volumes q)) by (rewrite LN; unfold q, setup_all; cbn [pc_U]; rewrite J1, app_length; lia).
    split; [exact LU|]. split; [exact LU|]. split; [rewrite LN; unfold q, setup_all; cbn [pc_eB]; rewrite J2, app_length; lia|]. split; [exact LC|]. split.
    - intros e i He _. unfold in_phase in He. cbn [pc_map] in He. unfold q, setup_all in He. cbn [pc_map] in He. rewrite J7 in He. cbn [map_values] in He. apply nth_error_lt' in He. rewrite app_length in He. lia.
    - apply Forall_forall. intros ph Hin. unfold q, setup_all in Hin. cbn [pc_phases] in Hin. apply in_map_iff in Hin as (ph0 & <- & Hin). constructor. rewrite <- J10 in Hin. eapply Forall_forall in W16; eauto. }
  assert (EP1 : pc_phases q1 = pc_phases q) by apply J'. assert (EP2 : pc_phases q2 = pc_phases q) by apply J'.
  destruct (rows10_total x qq (pc_phases q) (laue_factors (b_wave_vector b) (m_axis m)) (m_angle m) (l1 ++ l2) WQ) as (rows & K1).
  { exact J7. } { reflexivity. } { intros ph Hin. rewrite <- EP1 in Hin. exact (rows10_used _ _ _ _ _ _ A1 Hin). }
  change (rows10 qq (pc_phases q) (laue_factors (b_wave_vector b) (m_axis m)) (m_angle m)) with (rows10 q (pc_phases q) (laue_factors (b_wave_vector b) (m_axis m)) (m_angle m)) in K1.
  destruct (rows_join n q1 q2 q b m rows1 rows2 rows J' A1 B1 K1) as (A & B & P1 & P2 & P & HA).
  assert (G : forall r, In r rows -> (grain_of r < len (pc_volumes q))%nat).
  { intros r Hr. apply (rows10_in _ _ _ _ _ r K1) in Hr as (i & ph & Hi & e & h & sf & t & G0 & He & _ & _ & _ & ->).
    rewrite grain_of_row10. destruct WQ as (_ & _ & _ & _ & W5 & _). apply (W5 e i); auto. apply nth_error_lt' in Hi. exact Hi. }
  destruct (gather_total (me_espherecentroids (pc_mesh_lab q)) (map grain_of rows)) as (cents & K2).
  { intros g Hg. apply in_map_iff in Hg as (r & <- & Hr). rewrite LC. auto. }
  destruct (gather_total (pc_volumes q) (map grain_of rows)) as (vols & K3).
  { intros g Hg. apply in_map_iff in Hg as (r & <- & Hr). auto. }
  pose proof (compute_peaks_rows z q (pc_phases q) b m rows cents vols K1 K2 K3) as K4.
  assert (LR : len rows = (len rows1 + len rows2)%nat).
  { apply Permutation_length in P1, P2, P. rewrite P, P1, P2, !map_length, app_length, map_length. reflexivity. }
  replace (Nat.eqb (len rows) 1) with false in K4 by (symmetry; apply Nat.eqb_neq; lia).
  set (out := map (fun t => full_row z b m (fst (fst t)) (snd (fst t)) (snd t)) (zip3 rows cents vols)) in K4.
  exists A, B. eexists. exists out1, out2, out. split; [rewrite diffract_none; cbv zeta; fold q; rewrite K4; cbn [bind]; reflexivity|].
  split; [reflexivity|]. split; [reflexivity|]. subst pd1 pd2. cbn [pd_peaks pd_columns].
  split; [reflexivity|]. split; [reflexivity|]. split; [reflexivity|]. split; [reflexivity|]. split; [reflexivity|]. split; [reflexivity|].
  assert (Q : forall q0 rows0 cents0 vols0 L, gather (me_espherecentroids (pc_mesh_lab q0)) (map grain_of rows0) = Ok cents0 -> gather (pc_volumes q0) (map grain_of rows0) = Ok vols0 ->
     Permutation rows0 (map lrow L) -> Permutation (map (fun t => full_row z b m (fst (fst t)) (snd (fst t)) (snd t)) (zip3 rows0 cents0 vols0)) (map (full24 z q0 b m) L)).
  { intros q0 rows0 cents0 vols0 L G1 G2 PP. rewrite (full_rows z q0 b m rows0 cents0 vols0 G1 G2), PP, map_map.
    replace (map (full24 z q0 b m) L) with (map (fun l => full_row z b m (lrow l) (nth (grain_of (lrow l)) (me_espherecentroids (pc_mesh_lab q0)) vzero) (nth (grain_of (lrow l)) (pc_volumes q0) 0)) L); [reflexivity|].
    apply map_ext. intros l. apply full24_of. }
  split; [rewrite A5; apply Q; auto|]. split; [rewrite B5; apply Q; auto|]. split; [unfold out; apply Q; auto|]. split; [exact HA|]. exact W14.
Qed.

Lemma field_nth pd r c j : pd_columns pd = column_names -> index_of c column_names = Some j -> field pd r c = nth_error r j.
Proof. intros E H. unfold field. now rewrite E, H. Qed.
Lemma index_of_nth c l j : index_of c l = Some j -> nth_error l j = Some c.
Proof.
  revert j. induction l as [|a l IH]; intros j H; [discriminate|]. cbn [index_of] in H. destruct (String.eqb_spec c a) as [E|E].
  - assert (j = 0%nat) by congruence. subst. reflexivity.
  - destruct (index_of c l) as [k|]; [|discriminate]. cbn [option_map] in H. assert (j = S k) by congruence. subst j. now apply IH.
Qed.
Lemma index_inv c j : index_of c column_names = Some j -> c <> "grain_index"%string -> c <> "peak_index"%string -> (1 <= j < 24)%nat.
Proof.
  intros H N1 N2. apply index_of_nth in H. pose proof (nth_error_lt' _ _ _ H) as L. change (len column_names) with 25%nat in L.
  assert (j <> 0%nat) by (intros ->; cbn in H; congruence). assert (j <> 24%nat) by (intros ->; cbn in H; congruence). lia.
Qed.
Lemma counterpart_rows n pd1 pd g rest x y : pd_columns pd1 = column_names -> pd_columns pd = column_names -> len rest = 23%nat ->
  counterpart n pd1 pd ((Fin (INR g) :: rest) ++ [x]) ((Fin (INR (n + g)) :: rest) ++ [y]).
Proof.
  intros E1 E L. split.
  - intros c N1 N2. unfold field. rewrite E1, E. destruct (index_of c column_names) as [j|] eqn:Ej; [|reflexivity].
    pose proof (index_inv c j Ej N1 N2) as Hj. destruct j as [|j]; [lia|]. cbn [app nth_error]. rewrite !nth_error_app1 by lia. reflexivity.
  - exists g. unfold has, field. rewrite E1, E. split; reflexivity.
Qed.

(** C90. Two samples in the same beam and motion: when each of the two diffract calls returns, the call on the sample that
    holds the elements of both returns too, and its table holds exactly the rows of the two tables, in some order, the
    element numbers of the second sample shifted by the number of elements of the first. *)
Lemma pC90_joint_table : forall z x p1 p2 p b m lo hi pd1 pd2 s1 s2, reachable_pc x p1 -> reachable_pc x p2 -> joined p1 p2 p ->
  diffract z x p1 b m lo hi None = (Ok pd1, s1) -> diffract z x p2 b m lo hi None = (Ok pd2, s2) ->
  exists pd s part1 part2, diffract z x p b m lo hi None = (Ok pd, s) /\ Permutation (pd_peaks pd) (part1 ++ part2) /\
    Forall2 (counterpart 0 pd1 pd) (pd_peaks pd1) part1 /\
    Forall2 (counterpart (List.length (pc_volumes p1)) pd2 pd) (pd_peaks pd2) part2.
Proof.
  intros z x p1 p2 p b m lo hi pd1 pd2 s1 s2 R1 R2 J D1 D2.
  destruct (join_calls _ _ _ _ _ _ _ _ _ _ _ _ _ R1 R2 J D1 D2) as (A & B & pd & out1 & out2 & out & D & -> & -> & T1 & T2 & T & C1 & C2 & C & P1 & P2 & P & HA & HC).
  set (n := len (pc_volumes p1)) in *. exists pd, (setup_all x p b lo hi).
  assert (PO : Permutation out (out1 ++ map (bump n) out2)).
  { destruct J as (J1 & J2 & J3 & J4 & _). rewrite P, P1, P2, map_app, !map_map. apply Permutation_app.
    - replace (map (full24 z (setup_all x p b lo hi) b m) A) with (map (full24 z (setup_all x p1 b lo hi) b m) A); [reflexivity|].
      apply map_ext_in. intros l Hl. specialize (HA l Hl). symmetry. apply (full24_l z (setup_all x p1 b lo hi) (setup_all x p b lo hi) b m l (pc_volumes p2) (me_espherecentroids (pc_mesh_lab p2))); auto.
      unfold setup_all. cbn [pc_mesh_lab]. lia.
    - replace (map (fun l => full24 z (setup_all x p b lo hi) b m (sh n l)) B) with (map (fun l => bump n (full24 z (setup_all x p2 b lo hi) b m l)) B); [reflexivity|].
      apply map_ext. intros l. symmetry. apply (full24_r z n (setup_all x p1 b lo hi) (setup_all x p2 b lo hi) (setup_all x p b lo hi)); auto. }
  apply (perm_filter (illuminated b)) in PO. rewrite filter_app, filter_bump in PO.
  assert (SH1 : forall r, In r (filter (illuminated b) out1) -> exists g rest, r = Fin (INR g) :: rest /\ len rest = 23%nat).
  { intros r Hr. apply filter_In in Hr as [Hr _]. apply (Permutation_in _ P1), in_map_iff in Hr as (l & <- & _). destruct (full24_head z (setup_all x p1 b lo hi) b m l) as (rest & -> & L). eauto. }
  assert (SH2 : forall r, In r (filter (illuminated b) out2) -> exists g rest, r = Fin (INR g) :: rest /\ len rest = 23%nat).
  { intros r Hr. apply filter_In in Hr as [Hr _]. apply (Permutation_in _ P2), in_map_iff in Hr as (l & <- & _). destruct (full24_head z (setup_all x p2 b lo hi) b m l) as (rest & -> & L). eauto. }
  set (F := fun i (r : list num) => r ++ [Fin (INR i)]) in *.
  destruct (Permutation_Forall2 PO (forall2_mapi F (filter (illuminated b) out))) as (rows & PR & FR). rewrite <- T in PR.
  apply F2_app_split in FR as (part1 & part2 & -> & Q1 & Q2). exists part1, part2. split; [exact D|]. split; [exact PR|]. rewrite T1, T2.
  assert (INJ : forall {X Y} (P Q : X -> Y -> Prop) l k, (forall u v, In u l -> P u v -> Q u v) -> Forall2 P l k -> Forall2 Q l k).
  { clear. intros X Y P Q l k H HF. induction HF as [|u v l k Huv HF IH]; constructor; auto. - apply H; auto. now left. - apply IH. intros; apply H; auto. now right. }
  split.
  - apply (INJ _ _ _ (fun r y => (exists g rest, r = Fin (INR g) :: rest /\ len rest = 23%nat) /\ exists k, y = F k r)) in Q1; [|intros u v Hu Hv; auto].
    apply (forall2_mapi2 _ F) in Q1. eapply Forall2_impl'; [|exact Q1]. intros r1 r (r0 & k & ((g & rest & -> & L) & (k' & ->)) & ->).
    apply (counterpart_rows 0 pd1 pd g rest); auto.
  - assert (Q3 : Forall2 (fun r y => exists k, y = F k (bump n r)) (filter (illuminated b) out2) part2).
    { clear - Q2. remember (map (bump n) (filter (illuminated b) out2)) as L eqn:EL. revert EL. generalize (filter (illuminated b) out2). induction Q2 as [|u v l k Huv HF IH]; intros [|r L'] EL; try discriminate; constructor.
      - cbn [map] in EL. assert (u = bump n r) by congruence. now subst u. - apply IH. cbn [map] in EL. congruence. }
    apply (INJ _ _ _ (fun r y => (exists g rest, r = Fin (INR g) :: rest /\ len rest = 23%nat) /\ exists k, y = F k (bump n r))) in Q3; [|intros u v Hu Hv; auto].
    apply (forall2_mapi2 _ F) in Q3. eapply Forall2_impl'; [|exact Q3]. intros r1 r (r0 & k & ((g & rest & -> & L) & (k' & ->)) & ->).
    unfold bump. rewrite <- plus_INR. apply (counterpart_rows n pd2 pd g rest); auto.
Qed.
