(** * Proofs: pictures of two samples in the same beam, and how such samples are had (C90). *)
From Verif Require Import Vec Spec MMotion PMotion MLaue PLaue MMesh SMesh PMesh MScattering SScattering PScattering.
From Verif Require Import MStrain SStrain PStrain MBeam SBeam PBeam MPolycrystal SPolycrystal SEvents PPolycrystal PPolycrystal2 PPolycrystal3 PEvents.
From Verif Require Import MDetector SDetector PDetector PDetector2 PDetector3 PDetector4 MClip MRender SRender PRender PRender2 PRender3 SEnd PEnd PEnd2 SJoin PJoin PJoin2.
From Coq Require Import Permutation.
Open Scope list_scope. Open Scope R_scope.
Local Notation len := List.length.

(** ** A pixel of a picture, over the labels of the table *)
Definition l_spot (z z' : bool) (d : detector) (n : Z) (f i j : nat) (p : polycrystal) (b : beam) (m : motion) (l : lab) : R :=
  if l_keep z z' d p b m l then spot_at d f i j (l_seen z z' d n p b m l) else 0.
Lemma picture_labels e z x p b m lo hi det pd p' d frames ml mi im outp rows L : reachable_pc x p ->
  diffract z x p b m lo hi det = (Ok pd, p') -> render e d pd frames "micro" ml mi = Ok (im, outp) ->
  pd_peaks pd = mapi (fun i r => r ++ [Fin (INR i)]) (filter (illuminated b) rows) -> Permutation rows (map (full24 z p' b m) L) ->
  forall f i j, in_image im f i j -> f_at im f i j = Fin (sum_list (map (l_spot z (re_z e) d (nframes frames) f i j p' b m) L)).
Proof.
  intros HR HD HI Ep Pm f i j Hij.
  assert (Hf : fresh pd) by (apply (pC32_diffract_tables_fresh z x p b m lo hi det); now rewrite HD).
  pose proof (volumes_ok_diffract _ _ _ _ _ _ _ _ _ _ HR HD) as Hv.
  set (n := nframes frames). assert (Hn : (1 <= n)%Z) by apply nframes_ge.
  rewrite (pC39_pixel_is_sum_of_spots _ _ _ _ _ _ _ _ _ _ _ Hf Hv HI Hij). f_equal.
  apply micro_inv in HI as [Ho _]. fold n in Ho. pose proof (out_columns _ _ _ _ _ Hf Ho) as Hc. apply project_inv in Ho as (Hp & _).
  unfold rows_in_frame. rewrite sum_filter, Hp, map_map, sum_filter, Ep.
  set (F := fun r => if keepb (re_z e) d n r then
     (if Reqb (read outp (extend (re_z e) d n r) "frame") (INR f) then micro_spot d outp (extend (re_z e) d n r) (Z.of_nat i) (Z.of_nat j) else 0) else 0).
  transitivity (sum_list (map (fun r => F (r ++ [Fin 0])) (filter (illuminated b) rows))).
  { apply (sum_mapi (fun k r => r ++ [Fin (INR k)]) F (fun r => F (r ++ [Fin 0]))). intros k r Hin. apply filter_In in Hin as [Hin _].
    apply (Permutation_in _ Pm) in Hin. apply in_map_iff in Hin as (l & <- & _). unfold F. rewrite !contribution by auto. reflexivity. }
  rewrite sum_filter. rewrite (sum_perm _ _ _ Pm), map_map. f_equal. apply map_ext. intros l. rewrite full24_lit. unfold F. rewrite contribution by auto.
  unfold l_spot, l_keep. destruct (beam_contains _ _); cbn [andb]; [|reflexivity]. destruct (l_hit _ _ _ _ _ _) as [[zd yd] ang]. reflexivity.
Qed.
Lemma l_spot_ext z z' d n f i j p b m l p2 l2 : l_K b m l = l_K b m l2 -> l_src p m l = l_src p2 m l2 -> l_vol p l = l_vol p2 l2 ->
  l_int z d p b m l = l_int z d p2 b m l2 -> l_t l = l_t l2 -> l_spot z z' d n f i j p b m l = l_spot z z' d n f i j p2 b m l2.
Proof.
  intros E1 E2 E3 E4 E5. unfold l_spot, l_keep, l_seen, l_hit. rewrite E1, E2, E3, E4, E5.
  destruct (get_intersection _ _ _ _) as [[zd yd] a]. reflexivity.
Qed.

(** C90. The picture of both samples together is the pixel-wise sum of their two pictures. *)
Lemma pC90_joint_picture : forall e z x p1 p2 p b m lo hi pd1 pd2 pd s1 s2 s d frames ml mi im1 im2 im out1 out2 out,
  reachable_pc x p1 -> reachable_pc x p2 -> reachable_pc x p -> joined p1 p2 p ->
  diffract z x p1 b m lo hi None = (Ok pd1, s1) -> diffract z x p2 b m lo hi None = (Ok pd2, s2) -> diffract z x p b m lo hi None = (Ok pd, s) ->
  render e d pd1 frames "micro" ml mi = Ok (im1, out1) -> render e d pd2 frames "micro" ml mi = Ok (im2, out2) ->
  render e d pd frames "micro" ml mi = Ok (im, out) ->
  same_image im (add3 im1 im2).
Proof.
  intros e z x p1 p2 p b m lo hi pd1 pd2 pd s1 s2 s d frames ml mi im1 im2 im out1 out2 out R1 R2 R J D1 D2 D I1 I2 I.
  destruct (join_calls _ _ _ _ _ _ _ _ _ _ _ _ _ R1 R2 J D1 D2) as (A & B & pd' & o1 & o2 & o & D' & -> & -> & T1 & T2 & T & C1 & C2 & C & P1 & P2 & P & HA & HC).
  set (n := len (pc_volumes p1)) in *. set (q := setup_all x p b lo hi) in *. set (q1 := setup_all x p1 b lo hi) in *. set (q2 := setup_all x p2 b lo hi) in *.
  rewrite D in D'. assert (E1 : pd = pd') by (apply ok_inj; exact (f_equal fst D')). assert (E2 : s = q) by exact (f_equal snd D'). subst pd' s. clear D'.
  pose proof (picture_labels _ _ _ _ _ _ _ _ _ _ _ _ _ _ _ _ _ _ _ R1 D1 I1 T1 P1) as F1.
  pose proof (picture_labels _ _ _ _ _ _ _ _ _ _ _ _ _ _ _ _ _ _ _ R2 D2 I2 T2 P2) as F2.
  pose proof (picture_labels _ _ _ _ _ _ _ _ _ _ _ _ _ _ _ _ _ _ _ R D I T P) as F.
  destruct (pC36_shape _ _ _ _ _ _ _ _ _ I1) as (S11 & S12 & S13). destruct (pC36_shape _ _ _ _ _ _ _ _ _ I2) as (S21 & S22 & S23). destruct (pC36_shape _ _ _ _ _ _ _ _ _ I) as (S1 & S2 & S3).
  split; [unfold add3; cbn [f_n f_h f_w]; repeat split; congruence|]. intros f i j Hij.
  assert (H1 : in_image im1 f i j) by exact Hij.
  assert (H2 : in_image im2 f i j) by (unfold in_image in *; rewrite S21, S22, S23; rewrite S11, S12, S13 in H1; exact H1).
  assert (H0 : in_image im f i j) by (unfold in_image in *; rewrite S1, S2, S3; rewrite S11, S12, S13 in H1; exact H1).
  cbn [add3 f_at]. rewrite (F f i j H0), (F1 f i j H1), (F2 f i j H2). rewrite map_app, sum_list_app, map_map.
  destruct J as (_ & _ & J3 & J4 & _).
  assert (L1 : forall l, In l A -> full24 z q b m l = full24 z q1 b m l).
  { intros l Hl. specialize (HA l Hl). apply (full24_l z q1 q b m l (pc_volumes p2) (me_espherecentroids (pc_mesh_lab p2))); auto. unfold q1, setup_all. cbn [pc_mesh_lab]. lia. }
  assert (L2 : forall l, full24 z q b m (sh n l) = bump n (full24 z q2 b m l)) by (intros l; apply (full24_r z n q1 q2 q); auto).
  unfold nadd. apply (f_equal Fin). apply (f_equal2 Rplus); apply (f_equal sum_list).
  - apply map_ext_in. intros l Hl. specialize (L1 l Hl). specialize (HA l Hl). apply l_spot_ext; auto.
    + unfold l_src, q, q1, setup_all. cbn [pc_mesh_lab]. rewrite J4, app_nth1 by lia. reflexivity.
    + unfold l_vol, q, q1, setup_all. cbn [pc_volumes]. rewrite J3, app_nth1 by auto. reflexivity.
  - apply map_ext. intros l. specialize (L2 l). apply l_spot_ext; auto.
    + unfold l_src, q, q2, setup_all. cbn [pc_mesh_lab sh l_e l_t]. rewrite J4, app_nth2 by lia. rewrite HC. do 2 f_equal. lia.
    + unfold l_vol, q, q2, setup_all. cbn [pc_volumes sh l_e]. rewrite J3, app_nth2 by lia. f_equal. fold n. lia.
Qed.

(** ** Building the joint sample *)
Lemma gather_tet_l c1 c2 e t : gather_tet c1 e = Ok t -> gather_tet (c1 ++ c2) e = Ok t.
Proof.
  destruct e as [[[i j] k] l]. unfold gather_tet. destruct (nth_error c1 i) eqn:E1; [|discriminate]. destruct (nth_error c1 j) eqn:E2; [|discriminate].
  destruct (nth_error c1 k) eqn:E3; [|discriminate]. destruct (nth_error c1 l) eqn:E4; [|discriminate].
  rewrite !nth_error_app1 by (eapply nth_error_lt'; eauto). now rewrite E1, E2, E3, E4.
Qed.
Lemma gather_tet_r c1 c2 e : gather_tet (c1 ++ c2) (shift_nodes (len c1) e) = gather_tet c2 e.
Proof. destruct e as [[[i j] k] l]. unfold shift_nodes, gather_tet. now rewrite !nth_app_r. Qed.
Lemma gather_tets c1 c2 e1 e2 t1 t2 : traverse (gather_tet c1) e1 = Ok t1 -> traverse (gather_tet c2) e2 = Ok t2 ->
  traverse (gather_tet (c1 ++ c2)) (e1 ++ map (shift_nodes (len c1)) e2) = Ok (t1 ++ t2).
Proof.
  intros H1 H2. rewrite traverse_app.
  assert (E1 : traverse (gather_tet (c1 ++ c2)) e1 = Ok t1).
  { clear H2. revert t1 H1. induction e1 as [|e e1 IH]; intros t1 H; [exact H|]. cbn [traverse] in *. destruct (gather_tet c1 e) as [t|] eqn:E; cbn [bind] in H; [|discriminate].
    destruct (traverse (gather_tet c1) e1) as [ts|]; cbn [bind] in H; [|discriminate]. rewrite (gather_tet_l _ c2 _ _ E), (IH ts eq_refl). exact H. }
  assert (E2 : traverse (gather_tet (c1 ++ c2)) (map (shift_nodes (len c1)) e2) = Ok t2).
  { rewrite <- H2. clear. induction e2 as [|e e2 IH]; [reflexivity|]. cbn [map traverse]. rewrite gather_tet_r. destruct (gather_tet c2 e); cbn [bind]; [|reflexivity]. now rewrite IH. }
  rewrite E1, E2. reflexivity.
Qed.
Lemma where_app l1 l2 i : where_eq (l1 ++ l2) i = where_eq l1 i ++ map (Nat.add (len l1)) (where_eq l2 i).
Proof.
  unfold where_eq, mapi. assert (G : forall l k, List.concat (mapi_from k (fun e v => if Req_EM_T v (INR i) then [e] else []) l) =
    map (Nat.add k) (List.concat (mapi_from 0 (fun e v => if Req_EM_T v (INR i) then [e] else []) l))).
  { induction l as [|v l IH]; intros k; [reflexivity|]. cbn [mapi_from List.concat]. rewrite map_app, (IH (S k)), (IH 1%nat), map_map. f_equal.
    - destruct (Req_EM_T v (INR i)); cbn [map]; [f_equal; lia|reflexivity].
    - apply map_ext. intros. lia. }
  rewrite <- (Nat.add_0_r (len l1)), <- G. rewrite Nat.add_0_r.
  assert (M : forall l k m, List.concat (mapi_from k (fun e v => if Req_EM_T v (INR i) then [e] else []) (l ++ m)) =
    List.concat (mapi_from k (fun e v => if Req_EM_T v (INR i) then [e] else []) l) ++ List.concat (mapi_from (k + len l) (fun e v => if Req_EM_T v (INR i) then [e] else []) m)).
  { induction l as [|v l IH]; intros k m; cbn [app mapi_from List.concat List.length]; [now rewrite Nat.add_0_r|]. rewrite IH, app_assoc. do 3 f_equal. lia. }
  apply (M l1 0%nat l2).
Qed.
Lemma gather_join {A} (l m : list A) i1 i2 a c : gather l i1 = Ok a -> gather m i2 = Ok c -> gather (l ++ m) (i1 ++ map (Nat.add (len l)) i2) = Ok (a ++ c).
Proof.
  unfold gather. intros H1 H2. rewrite traverse_app.
  assert (E1 : traverse (fun i => match nth_error (l ++ m) i with Some a => Ok a | None => Err IndexError end) i1 = Ok a).
  { rewrite <- H1. clear H2. revert a H1. induction i1 as [|i i1 IH]; intros a H; [reflexivity|]. cbn [traverse] in *. destruct (nth_error l i) as [y|] eqn:E; [|discriminate].
    rewrite nth_error_app1 by (eapply nth_error_lt'; eauto). rewrite E. cbn [bind] in *.
    destruct (traverse _ i1) as [ts|] eqn:T in H; [|discriminate]. rewrite (IH ts T), T. reflexivity. }
  assert (E2 : traverse (fun i => match nth_error (l ++ m) i with Some a => Ok a | None => Err IndexError end) (map (Nat.add (len l)) i2) = Ok c).
  { rewrite <- H2. clear. induction i2 as [|i i2 IH]; [reflexivity|]. cbn [map traverse]. rewrite nth_app_r. destruct (nth_error m i); cbn [bind]; [|reflexivity]. now rewrite IH. }
  rewrite E1, E2. reflexivity.
Qed.
Lemma set_nth_l {A} (l m : list A) i a : (i < len l)%nat -> set_nth (l ++ m) i a = set_nth l i a ++ m.
Proof. revert i. induction l as [|x l IH]; intros [|i] H; cbn [List.length app set_nth] in *; try lia; [reflexivity|]. now rewrite IH by lia. Qed.
Lemma set_nth_r {A} (l m : list A) i a : set_nth (l ++ m) (len l + i) a = l ++ set_nth m i a.
Proof. induction l as [|x l IH]; cbn [List.length app set_nth Nat.add]; [reflexivity|]. now rewrite IH. Qed.
Lemma scatter_join {A} (l m : list A) i1 i2 v1 v2 : len i1 = len v1 -> (forall i, In i i1 -> (i < len l)%nat) ->
  scatter (l ++ m) (i1 ++ map (Nat.add (len l)) i2) (v1 ++ v2) = scatter l i1 v1 ++ scatter m i2 v2.
Proof.
  revert l v1. induction i1 as [|i i1 IH]; intros l [|v v1] L H; try discriminate.
  - cbn [app]. unfold scatter at 2. cbn [combine fold_left]. clear. revert m v2. induction i2 as [|i i2 IH]; intros m [|v v2]; try reflexivity.
    change (scatter (set_nth (l ++ m) (len l + i) v) (map (Nat.add (len l)) i2) v2 = l ++ scatter (set_nth m i v) i2 v2). rewrite set_nth_r. apply IH.
  - cbn [app]. change (scatter (set_nth (l ++ m) i v) (i1 ++ map (Nat.add (len l)) i2) (v1 ++ v2) = scatter (set_nth l i v) i1 v1 ++ scatter m i2 v2).
    rewrite set_nth_l by (apply H; now left). rewrite <- (set_nth_length l i v). apply IH; [now injection L|]. intros k Hk. rewrite set_nth_length. apply H. now right.
Qed.
Lemma combine_app {A B} (l1 l2 : list A) (m1 m2 : list B) : len l1 = len m1 -> combine (l1 ++ l2) (m1 ++ m2) = combine l1 m1 ++ combine l2 m2.
Proof. revert m1. induction l1 as [|x l1 IH]; intros [|y m1] H; try discriminate; [reflexivity|]. cbn [app combine]. f_equal. apply IH. now injection H. Qed.
Lemma lab_join B0 s1 s2 o1 o2 b1 b2 : lab_strain_to_B B0 s1 o1 = Ok b1 -> lab_strain_to_B B0 s2 o2 = Ok b2 -> lab_strain_to_B B0 (s1 ++ s2) (o1 ++ o2) = Ok (b1 ++ b2) /\ len b1 = len o1.
Proof.
  unfold lab_strain_to_B. destruct (Nat.eqb_spec (len s1) (len o1)) as [L1|]; [|discriminate]. destruct (Nat.eqb_spec (len s2) (len o2)) as [L2|]; [|discriminate].
  unfold epsilon_to_b. destruct (forallb _ _) eqn:F1; [|destruct (Nat.ltb _ _); discriminate]. intros H1. destruct (forallb _ (map _ (combine s2 o2))) eqn:F2; [|destruct (Nat.ltb _ _); discriminate]. intros H2.
  rewrite !app_length, L1, L2, Nat.eqb_refl, combine_app, map_app, forallb_app, F1, F2 by auto. cbn [andb]. rewrite traverse_app, H1, H2. cbn [bind]. split; [reflexivity|].
  apply traverse_length in H1. rewrite H1, map_length, combine_length, L1. lia.
Qed.
Lemma eB_join x U1 U2 e1 e2 m1 m2 : len U1 = len e1 -> len m1 = len U1 -> forall phs i B1 B2 o1 o2, len B1 = len U1 ->
  eB_loop x U1 e1 m1 i phs B1 = Ok o1 -> eB_loop x U2 e2 m2 i phs B2 = Ok o2 ->
  eB_loop x (U1 ++ U2) (e1 ++ e2) (m1 ++ m2) i phs (B1 ++ B2) = Ok (o1 ++ o2).
Proof.
  intros L1 L2. induction phs as [|ph phs IH]; intros i B1 B2 o1 o2 LB H1 H2; cbn [eB_loop] in *.
  - apply ok_inj in H1. apply ok_inj in H2. now subst.
  - destruct (gather e1 _) as [es1|] eqn:E1; cbn [bind] in H1; [|discriminate]. destruct (gather U1 _) as [us1|] eqn:E2; cbn [bind] in H1; [|discriminate].
    destruct (lab_strain_to_B _ es1 us1) as [bs1|] eqn:E3; cbn [bind] in H1; [|discriminate].
    destruct (gather e2 _) as [es2|] eqn:E4; cbn [bind] in H2; [|discriminate]. destruct (gather U2 _) as [us2|] eqn:E5; cbn [bind] in H2; [|discriminate].
    destruct (lab_strain_to_B _ es2 us2) as [bs2|] eqn:E6; cbn [bind] in H2; [|discriminate].
    rewrite where_app. rewrite L2 at 1. rewrite L1. rewrite (gather_join e1 e2 _ _ _ _ E1 E4). cbn [bind]. rewrite L2, (gather_join U1 U2 _ _ _ _ E2 E5). cbn [bind].
    destruct (lab_join _ _ _ _ _ _ _ E3 E6) as [-> LL]. cbn [bind]. rewrite <- LB, scatter_join.
    + apply IH; auto. now rewrite scatter_length.
    + rewrite LL. apply gather_spec in E2. now rewrite (Forall2_len _ _ _ E2).
    + intros k Hk. rewrite LB. exact (gather_idx_lt _ _ _ _ E2 Hk).
Qed.

Lemma repeat_app' {A} (a : A) n m : repeat a (n + m) = repeat a n ++ repeat a m.
Proof. induction n; cbn; congruence. Qed.
Lemma make_mesh c e ts ss : traverse (gather_tet c) e = Ok ts -> traverse bounding_sphere ts = Ok ss ->
  build_mesh c e = Ok (Mesh c c e (map elem_faces e) (map enormals ts) (map ecentroid ts) (map snd ss) (map fst ss) (mean_list (map ecentroid ts)) (map evolume ts)).
Proof. intros H1 H2. unfold build_mesh. rewrite H1. cbn [bind]. rewrite H2. reflexivity. Qed.
(** ... by building it: the vertices, elements, orientations, strains and phase numbers of the two samples one after the other. *)
Lemma pC90_built_together : forall x c1 c2 e1 e2 me1 me2 o1 o2 st1 st2 phs mp1 mp2 p1 p2,
  List.length mp1 = List.length e1 -> List.length mp2 = List.length e2 ->
  build_mesh c1 e1 = Ok me1 -> build_mesh c2 e2 = Ok me2 ->
  make_polycrystal x me1 (Stack o1) (Stack st1) phs (Some mp1) = Ok p1 ->
  make_polycrystal x me2 (Stack o2) (Stack st2) phs (Some mp2) = Ok p2 ->
  exists me p, build_mesh (c1 ++ c2) (e1 ++ map (shift_nodes (List.length c1)) e2) = Ok me /\
    make_polycrystal x me (Stack (o1 ++ o2)) (Stack (st1 ++ st2)) phs (Some (mp1 ++ mp2)) = Ok p /\ joined p1 p2 p.
Proof.
  intros x c1 c2 e1 e2 me1 me2 o1 o2 st1 st2 phs mp1 mp2 p1 p2 L1 L2 B1 B2 M1 M2.
  destruct (build_mesh_inv _ _ _ B1) as (ts1 & ss1 & ET1 & ES1 & E1). destruct (build_mesh_inv _ _ _ B2) as (ts2 & ss2 & ET2 & ES2 & E2).
  pose proof (gather_tets _ _ _ _ _ _ ET1 ET2) as ET.
  assert (ES : traverse bounding_sphere (ts1 ++ ts2) = Ok (ss1 ++ ss2)) by (rewrite traverse_app, ES1, ES2; reflexivity).
  pose proof (make_mesh _ _ _ _ ET ES) as B. eexists. unfold make_polycrystal in *. subst me1 me2. cbn [me_coord me_enod] in *. rewrite ET1 in M1. rewrite ET2 in M2. cbn [bind instantiate_mats] in *.
  destruct (Nat.eqb_spec (len o1) (len e1)) as [X1|]; [|discriminate]. destruct (Nat.eqb_spec (len o2) (len e2)) as [X2|]; [|discriminate].
  destruct (Nat.eqb_spec (len st1) (len e1)) as [Y1|]; [|discriminate]. destruct (Nat.eqb_spec (len st2) (len e2)) as [Y2|]; [|discriminate].
  cbn [bind instantiate_phase] in *. unfold instantiate_eB in *. cbn [map_values] in *.
  destruct (eB_loop x o1 _ _ _ _ _) as [b1|] eqn:Z1; [|discriminate]. destruct (eB_loop x o2 _ _ _ _ _) as [b2|] eqn:Z2; [|discriminate]. cbn [bind] in M1, M2.
  apply ok_inj in M1. apply ok_inj in M2.
  eexists. split; [exact B|]. cbn [me_coord me_enod]. rewrite ET. cbn [bind]. rewrite !app_length, map_length, X1, X2, Y1, Y2, Nat.eqb_refl. cbn [bind].
  rewrite repeat_app', (eB_join x o1 o2 st1 st2 mp1 mp2) with (o1 := b1) (o2 := b2); auto; try lia; [|rewrite repeat_length; lia]. cbn [bind]. split; [reflexivity|].
  subst p1 p2. unfold joined. cbn [pc_U pc_eB pc_volumes pc_mesh_lab me_espherecentroids pc_map pc_phases]. rewrite !map_app.
  split; [reflexivity|]. split; [reflexivity|]. split; [reflexivity|]. split; [reflexivity|]. split; [|auto].
  exists mp1, mp2. split; [reflexivity|]. split; [reflexivity|]. split; [reflexivity|]. rewrite !map_length. apply traverse_length in ET1, ET2. split; congruence.
Qed.
(** ... and it stays joined through transform and diffract. *)
Lemma pC90_stays_joined : forall z x p1 p2 p m t b lo hi, joined p1 p2 p ->
  joined (transform p1 m t) (transform p2 m t) (transform p m t) /\
  joined (snd (diffract z x p1 b m lo hi None)) (snd (diffract z x p2 b m lo hi None)) (snd (diffract z x p b m lo hi None)).
Proof.
  intros z x p1 p2 p m t b lo hi (J1 & J2 & J3 & J4 & (l1 & l2 & J5 & J6 & J7 & J8 & J9) & J10 & J11). split.
  - unfold joined, transform, mesh_update. cbn [pc_U pc_eB pc_volumes pc_mesh_lab me_espherecentroids pc_map pc_phases].
    rewrite J1, J4, !map_app. repeat (split; auto). exists l1, l2. auto.
  - rewrite !diffract_none. cbv zeta. cbn [snd]. unfold joined, setup_all. cbn [pc_U pc_eB pc_volumes pc_mesh_lab pc_map pc_phases].
    rewrite J10, J11. repeat (split; auto). exists l1, l2. auto.
Qed.
