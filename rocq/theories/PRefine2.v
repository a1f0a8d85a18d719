(** * Proofs: building a sample with a finer mesh, and an example (C106). *)
From Verif Require Import Vec Spec MMotion PMotion MLaue PLaue MMesh SMesh PMesh MScattering SScattering PScattering.
From Verif Require Import MStrain SStrain PStrain MBeam SBeam PBeam MPolycrystal SPolycrystal SEvents PPolycrystal PPolycrystal2 PPolycrystal3 PEvents.
From Verif Require Import MDetector SDetector MRender SRender SEnd PEnd PEnd2 SJoin PJoin PJoin2 PJoin3 SNumber PNumber PNumber2 PNumber3 PNano6 SRefine PRefine.
From Coq Require Import Permutation.
Open Scope list_scope. Open Scope R_scope.
Local Notation len := List.length.

Lemma eB_refined f x U U' ep ep' mp mp' phs n n' o : (forall e', (e' < n')%nat -> (f e' < n)%nat) -> len U = n -> len ep = n -> len mp = n ->
  len U' = n' -> len ep' = n' -> len mp' = n' -> inherits f U U' -> inherits f ep ep' -> inherits f mp mp' ->
  eB_loop x U ep mp 0 phs (repeat mzero n) = Ok o ->
  exists o', eB_loop x U' ep' mp' 0 phs (repeat mzero n') = Ok o' /\ inherits f o o'.
Proof.
  intros F LU Le Lm LU' Le' Lm' RU Re Rm H.
  assert (BACK : forall e' j ph, nth_error phs j = Some ph -> nth_error mp' e' = Some (INR j) ->
     (e' < n')%nat /\ nth_error mp (f e') = Some (INR j)).
  { intros e' j ph Hp Hm. pose proof (nth_error_lt' _ _ _ Hm) as B. split; [lia|]. rewrite <- (Rm e' B). exact Hm. }
  destruct (eB_total x U' ep' mp' ltac:(congruence) phs 0 (repeat mzero n')) as (o' & H').
  { intros e' j ph Hp Hm. cbn [Nat.add] in Hm. destruct (BACK e' j ph Hp Hm) as (B1 & B4).
    destruct (eB_admits _ _ _ _ _ _ _ _ _ _ _ H Hp B4) as (uu & epp & A1 & A2 & A3).
    destruct (eB_loop_in _ _ _ _ _ _ _ _ (f e') j ph uu epp H Hp B4) as (B & _ & A4); rewrite ?repeat_length; auto.
    exists uu, epp, B. rewrite (RU e'), (Re e') by lia. repeat split; auto. }
  exists o'. split; [exact H'|]. pose proof (eB_loop_length _ _ _ _ _ _ _ _ H) as LO. pose proof (eB_loop_length _ _ _ _ _ _ _ _ H') as LO'. rewrite repeat_length in LO, LO'.
  intros e' He. rewrite LO' in He. pose proof (F e' He) as Hf.
  destruct (nth_error mp' e') as [r|] eqn:Em; [|apply nth_error_None in Em; lia]. pose proof Em as Em0. rewrite (Rm e') in Em0 by lia.
  assert (D : (exists j ph, nth_error phs j = Some ph /\ r = INR j) \/ (forall j, (j < len phs)%nat -> r <> INR j)).
  { clear. induction phs as [|ph phs IH] using rev_ind; [right; intros j Hj; cbn in Hj; lia|]. destruct IH as [(j & ph0 & Hj & ->)|IH].
    - left. exists j, ph0. split; auto. rewrite nth_error_app1; auto. eapply nth_error_lt'; eauto.
    - destruct (Req_EM_T r (INR (len phs))) as [->|N].
      + left. exists (len phs), ph. split; auto. rewrite nth_error_app2, Nat.sub_diag by lia. reflexivity.
      + right. intros j Hj. rewrite app_length in Hj. cbn [List.length] in Hj. destruct (Nat.eq_dec j (len phs)) as [->|]; auto. apply IH. lia. }
  destruct D as [(j & ph & Hj & ->)|D].
  - destruct (eB_admits _ _ _ _ _ _ _ _ _ _ _ H Hj Em0) as (uu & epp & A1 & A2 & _).
    destruct (eB_loop_in _ _ _ _ _ _ _ _ (f e') j ph uu epp H Hj Em0) as (B & HB & A4); rewrite ?repeat_length; auto.
    assert (A1' : nth_error U' e' = Some uu) by (rewrite (RU e') by lia; exact A1). assert (A2' : nth_error ep' e' = Some epp) by (rewrite (Re e') by lia; exact A2).
    destruct (eB_loop_in _ _ _ _ _ _ _ _ e' j ph uu epp H' Hj Em) as (B' & HB' & A4'); rewrite ?repeat_length; auto. congruence.
  - rewrite (eB_loop_other _ _ _ _ _ _ _ _ (f e') H), (eB_loop_other _ _ _ _ _ _ _ _ e' H').
    + rewrite (nth_error_nth' (repeat mzero n) mzero), (nth_error_nth' (repeat mzero n') mzero) by (rewrite repeat_length; auto). now rewrite !nth_repeat.
    + intros j Hj C. cbn [Nat.add] in Hj. rewrite Em in C. apply (D j); [lia|congruence].
    + intros j Hj C. cbn [Nat.add] in Hj. rewrite Em0 in C. apply (D j); [lia|congruence].
Qed.
Lemma volumes_of c en ts e : traverse (gather_tet c) en = Ok ts -> nth e (map tet_volume ts) 0 = element_volume c en e.
Proof.
  intros H. unfold element_volume. destruct (nth_error en e) as [[[[i j] k] l]|] eqn:E.
  - destruct (traverse_nth _ _ _ _ _ H E) as (t & Ht & Hg). apply (nth_error_nth _ _ 0). rewrite nth_error_map, Ht. cbn [option_map]. f_equal.
    unfold gather_tet in Hg. destruct (nth_error c i) as [v1|] eqn:E1; [|discriminate]. destruct (nth_error c j) as [v2|] eqn:E2; [|discriminate].
    destruct (nth_error c k) as [v3|] eqn:E3; [|discriminate]. destruct (nth_error c l) as [v4|] eqn:E4; [|discriminate]. apply ok_inj in Hg. subst t.
    now rewrite (nth_error_nth _ _ vzero E1), (nth_error_nth _ _ vzero E2), (nth_error_nth _ _ vzero E3), (nth_error_nth _ _ vzero E4).
  - apply nth_overflow. rewrite map_length, (traverse_length _ _ _ H). now apply nth_error_None.
Qed.
(** C106. Such samples are what the constructor makes of a mesh whose elements have been cut, with the orientations, strains and
    phase numbers handed down to the parts; if it accepts the coarse sample it accepts the fine one. *)
Lemma pC106_built_refined : forall x f c c' en en' me me' o o' st st' phs mp mp' p, cuts f c c' en en' ->
  List.length mp = List.length en -> List.length mp' = List.length en' -> List.length o' = List.length en' -> List.length st' = List.length en' ->
  inherits f o o' -> inherits f st st' -> inherits f mp mp' ->
  build_mesh c en = Ok me -> build_mesh c' en' = Ok me' -> make_polycrystal x me (Stack o) (Stack st) phs (Some mp) = Ok p ->
  exists q, make_polycrystal x me' (Stack o') (Stack st') phs (Some mp') = Ok q /\ refines f p q.
Proof.
  intros x f c c' en en' me me' o o' st st' phs mp mp' p [K1 K2] Lm Lm' Lo' Ls' Ro Rs Rm B B' M.
  destruct (build_mesh_inv _ _ _ B) as (ts & ss & ET & ES & E). destruct (build_mesh_inv _ _ _ B') as (ts' & ss' & ET' & ES' & E').
  unfold make_polycrystal in *. subst me me'. cbn [me_coord me_enod] in *. rewrite ET in M. rewrite ET'. cbn [bind instantiate_mats] in *.
  destruct (Nat.eqb_spec (len o) (len en)) as [X1|]; [|discriminate]. destruct (Nat.eqb_spec (len st) (len en)) as [Y1|]; [|discriminate]. cbn [bind instantiate_phase] in *.
  unfold instantiate_eB in *. cbn [map_values] in *. destruct (eB_loop x o _ _ _ _ _) as [b1|] eqn:Z1; [|discriminate]. cbn [bind] in M. apply ok_inj in M.
  destruct (eB_refined f x o o' st st' mp mp' phs (len en) (len en') b1 K1 X1 Y1 Lm Lo' Ls' Lm' Ro Rs Rm Z1) as (b2 & Z2 & Rb).
  rewrite Lo', Ls', Nat.eqb_refl. cbn [bind]. rewrite Z2. cbn [bind]. eexists. split; [reflexivity|].
  subst p. unfold refines. cbn [pc_U pc_eB pc_volumes pc_map pc_phases]. rewrite !map_length, (traverse_length _ _ _ ET), (traverse_length _ _ _ ET').
  split; [exact K1|]. split.
  { intros e He. destruct (K2 e He) as [N S]. split; [exact N|]. rewrite (volumes_of _ _ _ _ ET), S. apply (f_equal sum_list). apply map_ext. intros e'. symmetry. now apply volumes_of. }
  split; [exact Ro|]. split; [exact Rb|]. split; [reflexivity|]. exists mp, mp'. auto.
Qed.

(** ** An element cut in two *)
Lemma seg_sphere_first t c : det (tet_A t) <> 0 -> argmax (tet_sides t) = 0%nat -> c = vscale (/2) (vadd (q0 t) (q1 t)) ->
  normsq (vsub (q2 t) c) <= normsq (vsub c (q0 t)) -> normsq (vsub (q3 t) c) <= normsq (vsub c (q0 t)) -> exists r, bounding_sphere t = Ok (c, r).
Proof.
  intros Hd Ha Hc H2 H3. unfold bounding_sphere. rewrite Ha. cbn [split_pair]. unfold seg_sphere. rewrite <- Hc. cbv zeta.
  destruct (tri_sphere _ _ _) as [c2 rad2]. unfold tet_sphere. destruct (Req_EM_T _ 0); [contradiction|]. cbn [bind].
  assert (K : forall v, normsq (vsub v c) <= normsq (vsub c (q0 t)) -> Rleb (dist v c - norm (vsub c (q0 t)) * slack) 0 = true).
  { intros v Hv. apply Rleb_true. apply sqrt_le_1_alt in Hv. fold (norm (vsub v c)) in Hv. fold (norm (vsub c (q0 t))) in Hv. unfold dist, slack.
    assert (0 <= norm (vsub c (q0 t))) by apply sqrt_pos. lra. }
  rewrite (K _ H2), (K _ H3). cbn [andb]. eauto.
Qed.
Lemma argmax_first a l : (forall x, In x l -> x <= a) -> argmax (a :: l) = 0%nat.
Proof.
  unfold argmax. generalize 1%nat. induction l as [|y l IH]; intros n H; [reflexivity|]. cbn [argmax_from]. destruct (Rlt_dec a y) as [L|L].
  - specialize (H y (or_introl eq_refl)). lra.
  - apply IH. intros; apply H. now right.
Qed.
Definition cut_coord : list vec := [V3 0 0 0; V3 8 0 0; V3 4 1 0; V3 4 0 1; V3 4 (1/2) (1/2)].
Definition cut_enod : list (nat * nat * nat * nat) := [(0, 1, 4, 3); (0, 1, 2, 4)]%nat.
Lemma thin_sphere y z y' z' : 0 <= y <= 1 -> 0 <= z <= 1 -> 0 <= y' <= 1 -> 0 <= z' <= 1 -> y * z' - z * y' <> 0 ->
  exists r, bounding_sphere (Tet (V3 0 0 0) (V3 8 0 0) (V3 4 y z) (V3 4 y' z')) = Ok (V3 4 0 0, r).
Proof.
  intros H1 H2 H3 H4 Hd. apply seg_sphere_first; cbn [q0 q1 q2 q3].
  - rewrite det_tet_A. cbn [q0 q1 q2 q3]. unfold signed_vol6. intros E. apply Hd. revert E. vunf. lra.
  - unfold tet_sides. cbn [q0 q1 q2 q3]. apply argmax_first. intros s Hs. unfold dist, norm in *.
    cbn [In] in Hs. destruct Hs as [<-|[<-|[<-|[<-|[<-|[]]]]]]; apply sqrt_le_1_alt; vunf; nra.
  - vext; vunf; field.
  - vunf. nra.
  - vunf. nra.
Qed.
Lemma cut_meshes : exists me me', build_mesh (firstn 4 cut_coord) ex_enod = Ok me /\ build_mesh cut_coord cut_enod = Ok me' /\
  me_espherecentroids me = [V3 4 0 0] /\ me_espherecentroids me' = [V3 4 0 0; V3 4 0 0].
Proof.
  destruct (thin_sphere 1 0 0 1) as (r1 & E1); try lra. destruct (thin_sphere (1/2) (1/2) 0 1) as (r2 & E2); try lra. destruct (thin_sphere 1 0 (1/2) (1/2)) as (r3 & E3); try lra.
  unfold build_mesh, cut_coord, ex_enod, cut_enod. cbn [firstn traverse gather_tet nth_error bind]. rewrite E1, E2, E3. cbn [bind]. do 2 eexists. repeat split.
Qed.
Lemma cut_cuts : cuts (fun _ => 0%nat) (firstn 4 cut_coord) cut_coord ex_enod cut_enod.
Proof.
  split; [intros; cbn; lia|]. intros [|e] He; [|cbn in He; lia]. split; [discriminate|].
  change (parts (fun _ => 0%nat) (len cut_enod) 0) with [0; 1]%nat. cbn [map]. unfold element_volume, ex_enod, cut_enod, cut_coord. cbn [nth_error firstn nth]. rewrite !sum_list_cons.
  pose proof (pC106_cut (V3 0 0 0) (V3 8 0 0) (V3 4 1 0) (V3 4 0 1) 0 0 (1/2) (1/2) ltac:(lra) ltac:(lra) ltac:(lra) ltac:(lra) ltac:(lra)) as H. cbv zeta in H.
  replace (vadd (vadd (vadd (vscale 0 (V3 0 0 0)) (vscale 0 (V3 8 0 0))) (vscale (1/2) (V3 4 1 0))) (vscale (1/2) (V3 4 0 1))) with (V3 4 (1/2) (1/2)) in H by (vext; vunf; field).
  destruct H as (_ & _ & H3 & H4). rewrite H3, H4. unfold sum_list. cbn [fold_right]. lra.
Qed.
Lemma ex_move t : 0 <= t <= 1 -> Rabs (vx (move_at ex_motion t (V3 4 0 0))) < 50 /\ Rabs (vy (move_at ex_motion t (V3 4 0 0))) < 50 /\ Rabs (vz (move_at ex_motion t (V3 4 0 0))) < 50.
Proof.
  intros Ht. unfold move_at, ex_motion. cbn [m_axis m_angle m_trans m_origin]. unfold rot_at, rod_matrix, rod_K2, rod_K. cbn [m_axis m_angle m_trans m_origin]. pose proof (SIN_bound (1 * t)) as S. pose proof (COS_bound (1 * t)) as C.
  set (s := sin _) in *. set (c := cos _) in *. clearbody s c. split; [|split]; apply Rabs_def1; vunf; nra.
Qed.
Lemma rows_at p b p' pd c : b_wave_vector b = V3 1 0 0 ->
  reachable_pc (ex_xtal two_planes) p -> pc_map p = MapTensor [0] -> pc_U p = [mI] -> pc_eB p = [mI] ->
  nth_error (me_espherecentroids (pc_mesh_lab p)) 0 = Some c -> strictly_inside (b_halfspaces b) c ->
  diffract false (ex_xtal two_planes) p b ex_motion 0 1 None = (Ok pd, p') ->
  nth_error (pc_phases p') 0 = Some (setup_planes (ex_xtal two_planes) ex_phase (b_wavelength b) 0 1) -> pd_peaks pd <> [].
Proof.
  intros Hk H3 H4 H6 H7 I K D Oph E0.
  assert (A : in_phase p 0 0) by (unfold in_phase; now rewrite H4).
  assert (B : plane_of (setup_planes (ex_xtal two_planes) ex_phase (b_wavelength b) 0 1) (V3 (-1) 1 0) 1).
  { exists two_planes, 0%nat. repeat split. }
  assert (C : scattering_vector p 0 (V3 (-1) 1 0) (V3 (-1) 1 0)).
  { exists mI, mI. rewrite H6, H7. repeat split. now rewrite !mv_I. }
  assert (E : motion_rotate ex_motion (P1 (V3 (-1) 1 0)) (S0 0) = Ok (P1 (V3 (-1) 1 0))).
  { rewrite rotate_P1_S0. do 2 f_equal. apply rot_at_0. }
  assert (F : laue_condition (b_wave_vector b) (V3 (-1) 1 0)).
  { unfold laue_condition. rewrite Hk. unfold norm. f_equal. vunf. lra. }
  assert (G : ~ laue_condition (b_wave_vector b) (right_handed_rotation (V3 0 0 1) PI (V3 (-1) 1 0))).
  { unfold laue_condition. rewrite Hk, <- rod_spec by apply unit_ez. unfold rod_matrix, rod_K2, rod_K. rewrite sin_PI, cos_PI.
    unfold norm. intros E1. apply sqrt_inj in E1; [|apply normsq_nonneg|apply normsq_nonneg]. revert E1. vunf. lra. }
  assert (JJ : motion_call ex_motion (P1 c) (S0 0) = Ok (P1 c)).
  { rewrite call_P1_S0. do 2 f_equal. apply move_at_0. }
  assert (T0 : 0 <= 0 <= 1) by lra.
  destruct (pC12_complete _ _ _ _ _ _ _ _ _ _ _ _ _ _ _ _ _ _ _ _ _ _ _ _ H3 ex_motion_ok unit_ez D A Oph B C T0 E F G I JJ K) as (row & Hr & _).
  rewrite E0 in Hr. exact Hr.
Qed.
(** The hypotheses are met: a tetrahedron and the same tetrahedron cut in two, with reflections. *)
Lemma xC106_cut_in_two : exists z x f p q b m pd p', reachable_pc x p /\ reachable_pc x q /\ refines f p q /\
  List.length (pc_volumes p) = 1%nat /\ List.length (pc_volumes q) = 2%nat /\ (forall v, In v (pc_volumes q) -> 0 < v < nth 0 (pc_volumes p) 0) /\
  always_lit p b m /\ always_lit q b m /\ diffract z x p b m 0 1 None = (Ok pd, p') /\ pd_peaks pd <> [].
Proof.
  destruct big_beam as (b & Hb & Hk & Hin). destruct cut_meshes as (me & me' & B & B' & S & S').
  assert (M : exists p, make_polycrystal (ex_xtal two_planes) me (Stack [mI]) (Stack [mzero]) [ex_phase] (Some [0]) = Ok p /\
    pc_map p = MapTensor [0] /\ pc_phases p = [ex_phase] /\ pc_U p = [mI] /\ pc_eB p = [mI] /\ pc_mesh_lab p = me /\ pc_volumes p = [element_volume (firstn 4 cut_coord) ex_enod 0]).
  { destruct (build_mesh_inv _ _ _ B) as (ts & ss & ET & ES & Eme). assert (Ec : me_coord me = firstn 4 cut_coord) by now rewrite Eme. assert (En : me_enod me = ex_enod) by now rewrite Eme.
    pose proof (volumes_of _ _ _ 0 ET) as V. pose proof (traverse_length _ _ _ ET) as LT. change (len ex_enod) with 1%nat in LT.
    unfold make_polycrystal. rewrite Ec, En, ET. cbn [bind]. change (len ex_enod) with 1%nat. cbn [List.length instantiate_mats Nat.eqb bind instantiate_phase].
    pose proof ex_eB as XE. cbn [repeat] in XE. rewrite XE. cbn [bind]. eexists. split; [reflexivity|]. cbn [pc_map pc_phases pc_U pc_eB pc_mesh_lab pc_volumes]. repeat (split; [reflexivity|]).
    destruct ts as [|t [|? ?]]; try discriminate. cbn [map nth] in *. now rewrite V. }
  destruct M as (p & M & M1 & M2 & M3 & M4 & M5 & MV).
  destruct (pC106_built_refined (ex_xtal two_planes) (fun _ => 0%nat) (firstn 4 cut_coord) cut_coord ex_enod cut_enod me me' [mI] [mI; mI] [mzero] [mzero; mzero] [ex_phase] [0] [0; 0] p) as (q & Q & HR); auto.
  { exact cut_cuts. }
  { intros [|[|e]] He; cbn in *; try reflexivity; lia. } { intros [|[|e]] He; cbn in *; try reflexivity; lia. } { intros [|[|e]] He; cbn in *; try reflexivity; lia. }
  assert (RP : reachable_pc (ex_xtal two_planes) p).
  { eapply (rpc_make _ _ _ me [] me); [exact B|reflexivity| |exact M]. repeat constructor. }
  assert (RQ : reachable_pc (ex_xtal two_planes) q).
  { eapply (rpc_make _ _ _ me' [] me'); [exact B'|reflexivity| |exact Q]. repeat constructor. }
  assert (MQ : pc_mesh_lab q = me' /\ pc_volumes q = [element_volume cut_coord cut_enod 0; element_volume cut_coord cut_enod 1]).
  { apply make_pc_inv in Q as (ts & ? & ? & ? & ? & ET & _ & _ & _ & _ & ->). cbn [pc_mesh_lab pc_volumes]. split; [reflexivity|].
    destruct (build_mesh_inv _ _ _ B') as (? & ? & _ & _ & Eme). rewrite Eme in ET. cbn [me_coord me_enod] in ET.
    pose proof (volumes_of _ _ _ 0 ET) as V0. pose proof (volumes_of _ _ _ 1 ET) as V1. pose proof (traverse_length _ _ _ ET) as LT. change (len cut_enod) with 2%nat in LT.
    destruct ts as [|t [|t1 [|? ?]]]; try discriminate. cbn [map nth] in *. now rewrite V0, V1. }
  destruct MQ as [MQ VQ].
  pose proof (ex_outcome two_planes me p b Hk RP M1 M2 M3 M4 M5) as O. destruct (diffract false (ex_xtal two_planes) p b ex_motion 0 1 None) as [r p'] eqn:D. destruct O as (_ & O & Oph).
  destruct O as (pd & ->). { cbn [map two_planes list_sum fold_right]. now rewrite refl_pos, refl_neg. }
  assert (LIT : forall pp e, (forall c, In c (me_espherecentroids (pc_mesh_lab pp)) -> c = V3 4 0 0) -> (e < len (me_espherecentroids (pc_mesh_lab pp)))%nat -> forall t, 0 <= t <= 1 -> exists s, lit_at pp b ex_motion e t s).
  { intros pp e Hc He t Ht. exists (move_at ex_motion t (V3 4 0 0)). exists (V3 4 0 0). split.
    - destruct (nth_error (me_espherecentroids (pc_mesh_lab pp)) e) as [c|] eqn:E; [|apply nth_error_None in E; lia]. now rewrite (Hc c (nth_error_In _ _ E)).
    - split; [now rewrite call_P1_S0|]. destruct (ex_move t Ht) as (A1 & A2 & A3). now apply Hin. }
  exists false, (ex_xtal two_planes), (fun _ => 0%nat), p, q, b, ex_motion, pd, p'.
  split; [exact RP|]. split; [exact RQ|]. split; [exact HR|]. split; [now rewrite MV|]. split; [now rewrite VQ|]. split.
  { rewrite VQ, MV. cbn [nth]. unfold element_volume, cut_enod, cut_coord, ex_enod. cbn [nth_error nth firstn].
    pose proof (pC106_cut (V3 0 0 0) (V3 8 0 0) (V3 4 1 0) (V3 4 0 1) 0 0 (1/2) (1/2) ltac:(lra) ltac:(lra) ltac:(lra) ltac:(lra) ltac:(lra)) as H. cbv zeta in H.
    replace (vadd (vadd (vadd (vscale 0 (V3 0 0 0)) (vscale 0 (V3 8 0 0))) (vscale (1/2) (V3 4 1 0))) (vscale (1/2) (V3 4 0 1))) with (V3 4 (1/2) (1/2)) in H by (vext; vunf; field).
    destruct H as (_ & _ & G3 & G4). rewrite G3, G4.
    assert (P : 0 < tet_volume (Tet (V3 0 0 0) (V3 8 0 0) (V3 4 1 0) (V3 4 0 1))).
    { rewrite tet_volume_vol. cbn [q0 q1 q2 q3]. replace (signed_vol6 _ _ _ _) with 8 by (unfold signed_vol6; vunf; ring). rewrite Rabs_right; lra. }
    intros v [<-|[<-|[]]]; lra. }
  split. { intros e t He Ht. apply LIT; auto; rewrite M5, S; [|rewrite MV in He; exact He]. intros c [<-|[]]; reflexivity. }
  split. { intros e t He Ht. apply LIT; auto; rewrite MQ, S'; [|rewrite VQ in He; exact He]. intros c [<-|[<-|[]]]; reflexivity. }
  split; [exact D|]. apply (rows_at p b p' pd (V3 4 0 0) Hk RP M1 M3 M4); auto; [now rewrite M5, S|]. apply Hin; cbn [vx vy vz]; apply Rabs_def1; lra.
Qed.
