(** * Proofs about MPolycrystal. *)
From Verif Require Import Vec Spec MMotion PMotion MLaue PLaue MMesh SMesh PMesh MScattering SScattering PScattering.
From Verif Require Import MStrain SStrain PStrain MBeam SBeam PBeam MPolycrystal SPolycrystal.
Open Scope R_scope.
Local Notation len := List.length.

(** ** Lists *)
Lemma where_eq_in l i e : In e (where_eq l i) <-> nth_error l e = Some (INR i).
Proof.
  unfold where_eq. rewrite in_concat. split.
  - intros (s & Hs & He). apply in_mapi in Hs as (k & v & Hk & ->).
    destruct (Req_EM_T v (INR i)) as [->|]; [|destruct He]. destruct He as [<-|[]]. auto.
  - intros H. exists [e]. split; [|left; auto]. apply in_mapi. exists e, (INR i). split; auto.
    destruct (Req_EM_T (INR i) (INR i)); auto; contradiction.
Qed.
Lemma gather_spec {A} (l : list A) idx out :
  gather l idx = Ok out -> Forall2 (fun i a => nth_error l i = Some a) idx out.
Proof.
  intros H. apply traverse_spec in H. induction H as [|i a idx out Hh]; constructor; auto.
  destruct (nth_error l i); [|discriminate]. now inversion Hh.
Qed.
Lemma gather_total {A} (l : list A) idx :
  (forall i, In i idx -> (i < len l)%nat) -> exists out, gather l idx = Ok out.
Proof.
  intros H. apply traverse_ok. intros i Hi. apply H in Hi. apply nth_error_Some in Hi.
  destruct (nth_error l i); eauto; contradiction.
Qed.
Lemma gather_map {A B} (f : A -> B) l idx :
  gather (map f l) idx = let* o := gather l idx in Ok (map f o).
Proof.
  unfold gather. induction idx as [|i idx IH]; [reflexivity|]. cbn [traverse]. rewrite nth_error_map.
  destruct (nth_error l i); [|reflexivity]. cbn [option_map bind]. rewrite IH.
  destruct (traverse (fun i => match nth_error l i with Some a => Ok a | None => Err IndexError end) idx); reflexivity.
Qed.
Lemma gather_idx_lt {A} (l : list A) idx out i : gather l idx = Ok out -> In i idx -> (i < len l)%nat.
Proof.
  intros H Hi. apply gather_spec in H. destruct (Forall2_in_l _ _ _ _ H Hi) as (a & _ & Ha).
  apply nth_error_Some. congruence.
Qed.
Lemma set_nth_length {A} (l : list A) i a : len (set_nth l i a) = len l.
Proof. revert i; induction l; intros [|i]; simpl; auto. Qed.
Lemma set_nth_same {A} (l : list A) i a : (i < len l)%nat -> nth_error (set_nth l i a) i = Some a.
Proof. revert i; induction l; intros [|i] H; simpl in *; auto; try lia. apply IHl; lia. Qed.
Lemma set_nth_other {A} (l : list A) i j a : i <> j -> nth_error (set_nth l i a) j = nth_error l j.
Proof. revert i j; induction l; intros [|i] [|j] H; simpl; auto; congruence. Qed.
Lemma scatter_length {A} idx : forall (l : list A) vals, len (scatter l idx vals) = len l.
Proof.
  unfold scatter. induction idx as [|i idx IH]; intros l [|v vals]; simpl; auto.
  rewrite IH, set_nth_length. auto.
Qed.
Lemma scatter_other {A} idx e : forall (l : list A) vals, ~ In e idx ->
  nth_error (scatter l idx vals) e = nth_error l e.
Proof.
  unfold scatter. induction idx as [|i idx IH]; intros l [|v vals] H; simpl; auto.
  rewrite IH by (simpl in H; tauto). apply set_nth_other. simpl in H; tauto.
Qed.
Lemma scatter_in {A} (P : nat -> A -> Prop) idx vals e : Forall2 P idx vals ->
  forall l, (forall i, In i idx -> (i < len l)%nat) -> In e idx ->
  exists a, nth_error (scatter l idx vals) e = Some a /\ P e a.
Proof.
  induction 1 as [|i v idx vals Hp HF IH]; intros l Hl Hin; [destruct Hin|].
  change (exists a, nth_error (scatter (set_nth l i v) idx vals) e = Some a /\ P e a).
  destruct (in_dec Nat.eq_dec e idx) as [Hi|Hi].
  - apply IH; auto. intros j Hj. rewrite set_nth_length. apply Hl; right; auto.
  - destruct Hin as [->|]; [|contradiction]. exists v. split; auto.
    rewrite scatter_other by auto. apply set_nth_same, Hl; left; auto.
Qed.
Lemma nth_error_lt {A} (l : list A) i : (i < len l)%nat -> exists a, nth_error l i = Some a.
Proof. intros H. apply nth_error_Some in H. destruct (nth_error l i); eauto; contradiction. Qed.
Lemma nth_error_lt' {A} (l : list A) i a : nth_error l i = Some a -> (i < len l)%nat.
Proof. intros H. apply nth_error_Some. congruence. Qed.
Lemma nth_error_combine {A B} (l : list A) (m : list B) i a b :
  nth_error (combine l m) i = Some (a, b) -> nth_error l i = Some a /\ nth_error m i = Some b.
Proof.
  revert m i; induction l; intros [|y m] [|i] H; simpl in *; try discriminate; auto.
  - inversion H; auto.
Qed.

(** ** B matrices *)
(** eB entry of an element of phase i *)
Definition lattice_ok (x : xtal) (p : polycrystal) : Prop :=
  forall e i ph U eps, in_phase p e i -> nth_error (pc_phases p) i = Some ph ->
    nth_error (pc_U p) e = Some U -> nth_error (pc_eps p) e = Some eps ->
    exists B, nth_error (pc_eB p) e = Some B /\
      eps_to_B1 (x_form_b x (ph_cell ph)) (crystal_strain U eps) = Ok B.

Lemma eB_loop_length x U eps mp : forall phs i eB out, eB_loop x U eps mp i phs eB = Ok out -> len out = len eB.
Proof.
  induction phs as [|ph phs IH]; intros i eB out H; simpl in H; [now inversion H|].
  destruct (gather eps _) as [es|]; simpl in H; [|discriminate].
  destruct (gather U _) as [us|]; simpl in H; [|discriminate].
  destruct (lab_strain_to_B _ es us) as [Bs|]; simpl in H; [|discriminate].
  apply IH in H. rewrite H. apply scatter_length.
Qed.
Lemma eB_loop_idx x U eps mp : forall phs i eB out e j, eB_loop x U eps mp i phs eB = Ok out ->
  (i <= j < i + len phs)%nat -> nth_error mp e = Some (INR j) -> (e < len U)%nat /\ (e < len eps)%nat.
Proof.
  induction phs as [|ph phs IH]; intros i eB out e j H Hj He; simpl in Hj; [lia|].
  simpl in H.
  destruct (gather eps _) as [es|] eqn:E1; simpl in H; [|discriminate].
  destruct (gather U _) as [us|] eqn:E2; simpl in H; [|discriminate].
  destruct (lab_strain_to_B _ es us) as [Bs|]; simpl in H; [|discriminate].
  destruct (Nat.eq_dec i j) as [->|N].
  - apply where_eq_in in He. split; eapply gather_idx_lt; eauto.
  - eapply IH; eauto. lia.
Qed.
Lemma eB_loop_other x U eps mp : forall phs i eB out e, eB_loop x U eps mp i phs eB = Ok out ->
  (forall j, (i <= j < i + len phs)%nat -> nth_error mp e <> Some (INR j)) ->
  nth_error out e = nth_error eB e.
Proof.
  induction phs as [|ph phs IH]; intros i eB out e H Hn; simpl in H; [now inversion H|].
  destruct (gather eps _) as [es|] eqn:E1; simpl in H; [|discriminate].
  destruct (gather U _) as [us|] eqn:E2; simpl in H; [|discriminate].
  destruct (lab_strain_to_B _ es us) as [Bs|]; simpl in H; [|discriminate].
  rewrite (IH _ _ _ e H). 2:{ intros j Hj. apply Hn. simpl. lia. }
  apply scatter_other. rewrite where_eq_in. apply Hn. simpl. lia.
Qed.
Lemma INR_eq' i j : INR i = INR j -> i = j.
Proof. apply INR_eq. Qed.
Lemma eB_loop_in x U eps mp : forall phs i eB out e j ph u ep, eB_loop x U eps mp i phs eB = Ok out ->
  nth_error phs j = Some ph -> nth_error mp e = Some (INR (i + j)) -> (e < len eB)%nat ->
  len U = len eB -> len eps = len eB ->
  nth_error U e = Some u -> nth_error eps e = Some ep ->
  exists B, nth_error out e = Some B /\ eps_to_B1 (x_form_b x (ph_cell ph)) (crystal_strain u ep) = Ok B.
Proof.
  induction phs as [|ph0 phs IH]; intros i eB out e j ph u ep H Hj He Hlt LU Le Hu Hep; [destruct j; discriminate|].
  simpl in H.
  destruct (gather eps _) as [es|] eqn:E1; simpl in H; [|discriminate].
  destruct (gather U _) as [us|] eqn:E2; simpl in H; [|discriminate].
  destruct (lab_strain_to_B _ es us) as [Bs|] eqn:E3; simpl in H; [|discriminate].
  destruct j as [|j]; simpl in Hj.
  - inversion Hj; subst ph0. rewrite Nat.add_0_r in He. rewrite (eB_loop_other _ _ _ _ _ _ _ _ e H).
    2:{ intros k Hk C. rewrite He in C. inversion C as [C']. apply INR_eq in C'. lia. }
    apply lab_inv in E3 as (L & F). apply gather_spec in E1. apply gather_spec in E2.
    assert (HF : Forall2 (fun e B => exists u ep, nth_error U e = Some u /\ nth_error eps e = Some ep /\
                eps_to_B1 (x_form_b x (ph_cell ph)) (crystal_strain u ep) = Ok B) (where_eq mp i) Bs).
    { clear - E1 E2 F. revert us Bs E2 F. induction E1 as [|k ep0 idx es Hk HF IH]; intros us Bs E2 F.
      - inversion E2; subst. inversion F; subst; constructor.
      - inversion E2; subst. simpl in F. inversion F; subst. constructor; eauto 6. }
    destruct (scatter_in _ _ _ e HF eB) as (B & HB & u' & ep' & Hu' & He' & HB').
    + intros k Hk. rewrite <- LU. destruct (Forall2_in_l _ _ _ _ E2 Hk) as (? & _ & ?). eapply nth_error_lt'; eauto.
    + apply where_eq_in; auto.
    + exists B. split; auto. congruence.
  - eapply IH; eauto; rewrite ?scatter_length; auto. now rewrite Nat.add_succ_comm.
Qed.

(** ** Invariants of reachable polycrystals *)
Definition wf (x : xtal) (p : polycrystal) : Prop :=
  let N := len (pc_volumes p) in
  len (pc_U p) = N /\ len (pc_eps p) = N /\ len (pc_eB p) = N /\
  len (me_espherecentroids (pc_mesh_lab p)) = N /\
  (forall e i, in_phase p e i -> (i < len (pc_phases p))%nat -> (e < N)%nat) /\
  Forall (reachable_phase x) (pc_phases p).

Lemma mesh_step_lengths me o me' : mesh_step me o = Ok me' ->
  len (me_espherecentroids me') = len (me_espherecentroids me) /\ me_enod me' = me_enod me.
Proof.
  destruct o as [v|m t|a w]; simpl; intros H.
  - inversion H; subst; simpl. rewrite map_length. auto.
  - inversion H; subst; simpl. rewrite map_length. auto.
  - unfold mesh_rotate in H. destruct (make_motion _ _ _ _) as [m|]; simpl in H; [|discriminate].
    inversion H; subst; simpl. rewrite map_length. auto.
Qed.
Lemma mesh_run_lengths ops : forall me me', mesh_run me ops = Ok me' ->
  len (me_espherecentroids me') = len (me_espherecentroids me) /\ me_enod me' = me_enod me.
Proof.
  induction ops as [|o ops IH]; intros me me' H; simpl in H; [inversion H; auto|].
  destruct (mesh_step me o) as [m1|] eqn:E; simpl in H; [|discriminate].
  apply mesh_step_lengths in E as (E1 & E2). apply IH in H as (H1 & H2). split; congruence.
Qed.
Lemma traverse_length {A B} (f : A -> result B) l ys : traverse f l = Ok ys -> len ys = len l.
Proof. intros H. apply traverse_spec in H. symmetry. eapply Forall2_len; eauto. Qed.
Lemma build_lengths coord enod me : build_mesh coord enod = Ok me ->
  len (me_espherecentroids me) = len (me_enod me).
Proof.
  intros H. apply build_mesh_inv in H as (ts & ss & H1 & H2 & ->). simpl. rewrite map_length.
  rewrite (traverse_length _ _ _ H2), (traverse_length _ _ _ H1). auto.
Qed.
Lemma instantiate_mats_length N a l : instantiate_mats N a = Ok l -> len l = N.
Proof.
  destruct a; simpl; intros H; try discriminate.
  - inversion H. apply repeat_length.
  - destruct (Nat.eqb_spec (len l0) N); [|discriminate]. inversion H; subst; auto.
Qed.
Lemma make_pc_inv x me o s phs mp p : make_polycrystal x me o s phs mp = Ok p ->
  exists tets U eps pm eB, traverse (gather_tet (me_coord me)) (me_enod me) = Ok tets /\
    instantiate_mats (len (me_enod me)) o = Ok U /\ instantiate_mats (len (me_enod me)) s = Ok eps /\
    instantiate_phase (len (me_enod me)) phs mp = Ok pm /\
    instantiate_eB x U eps phs pm (len (me_enod me)) = Ok eB /\
    p = PC (map tet_volume tets) U eps pm phs eB me me eps U.
Proof.
  unfold make_polycrystal. intros H.
  destruct (traverse _ _) as [tets|] eqn:E0; cbn [bind] in H; [|discriminate].
  destruct (instantiate_mats _ o) as [U|] eqn:E1; cbn [bind] in H; [|discriminate].
  destruct (instantiate_mats _ s) as [eps|] eqn:E2; cbn [bind] in H; [|discriminate].
  destruct (instantiate_phase _ _ _) as [pm|] eqn:E3; cbn [bind] in H; [|discriminate].
  destruct (instantiate_eB _ _ _ _ _ _) as [eB|] eqn:E4; cbn [bind] in H; [|discriminate].
  inversion H. exists tets, U, eps, pm, eB. auto 10.
Qed.
Lemma setup_cell x ph wl lo hi : ph_cell (setup_planes x ph wl lo hi) = ph_cell ph.
Proof. reflexivity. Qed.

Lemma diffract_state z x p b m lo hi det : exists phs,
  snd (diffract z x p b m lo hi det) =
  PC (pc_volumes p) (pc_U p) (pc_eps p) (pc_map p) phs (pc_eB p)
                   (pc_mesh_lab p) (pc_mesh_sample p) (pc_eps_sample p) (pc_U_sample p) /\
  (phs = pc_phases p \/ exists lo' hi', phs = map (fun ph => setup_planes x ph (b_wavelength b) lo' hi') (pc_phases p)).
Proof.
  unfold diffract. destruct (match det with None => _ | Some d => _ end) as [[lo' hi']|e]; simpl; eauto 6.
  exists (pc_phases p). split; auto. destruct p; reflexivity.
Qed.

Lemma wf_reachable x p : reachable_pc x p -> wf x p.
Proof.
  induction 1 as [coord enod me0 ops me o s phs mp p Hb Hr Hph Hm| p m t H IH | z p b m lo hi det H IH| p H IH].
  - apply make_pc_inv in Hm as (tets & U & eps & pm & eB & H0 & H1 & H2 & H3 & H4 & ->).
    apply mesh_run_lengths in Hr as (L1 & L2). apply build_lengths in Hb.
    pose proof (traverse_length _ _ _ H0) as L0. apply instantiate_mats_length in H1. apply instantiate_mats_length in H2.
    unfold wf; simpl. rewrite map_length, L0, H1, H2.
    unfold instantiate_eB in H4. pose proof (eB_loop_length _ _ _ _ _ _ _ _ H4) as L4. rewrite repeat_length in L4.
    repeat split; auto; [congruence|]. intros e i He Hi. unfold in_phase in He; simpl in He.
    destruct (eB_loop_idx _ _ _ _ _ _ _ _ e i H4) as (K & _); auto; [simpl; lia|]. congruence.
  - destruct IH as (A1 & A2 & A3 & A4 & A5 & A6). unfold wf, transform; simpl. rewrite !map_length. auto 10.
  - destruct (diffract_state z x p b m lo hi det) as (phs' & -> & Hp).
    destruct IH as (A1 & A2 & A3 & A4 & A5 & A6). unfold wf; simpl.
    assert (len phs' = len (pc_phases p)) as L by (destruct Hp as [->|(? & ? & ->)]; rewrite ?map_length; auto).
    repeat split; auto. { intros e i He Hi. apply (A5 e i); auto. lia. }
    destruct Hp as [->|(lo' & hi' & ->)]; auto. apply Forall_forall. intros ph Hin. apply in_map_iff in Hin as (ph0 & <- & Hin).
    constructor. eapply Forall_forall in A6; eauto.
  - destruct IH as (A1 & A2 & A3 & A4 & A5 & A6). unfold wf, reload; simpl. repeat split; auto.
Qed.

(** ** Rows *)
Lemma used_planes_in ph planes h sf : used_planes ph = Ok planes -> (In (h, sf) planes <-> plane_of ph h sf).
Proof.
  unfold used_planes, plane_of. destruct (ph_hkl ph) as [hkl|]; [|discriminate].
  destruct (ph_sf ph) as [s|].
  - destruct (Nat.eqb_spec (len s) (len hkl)) as [L|]; [|discriminate]. intros H; inversion H; subst; clear H.
    rewrite filter_In. simpl. rewrite Rltb_true. split.
    + intros (Hin & Hlt). apply In_nth_error in Hin as (j & Hj). apply nth_error_combine in Hj as (J1 & J2).
      rewrite nth_error_map in J2. destruct (nth_error s j) as [[re im]|] eqn:E; [|discriminate].
      cbn [option_map fst snd] in J2. inversion J2; subst. exists hkl, j. repeat split; auto. exists re, im. auto.
    + intros (hkl' & j & E & Hj & re & im & Hs & -> & Hlt). inversion E; subst hkl'. split; auto.
      eapply nth_error_In with (n := j). apply combine_nth; auto. now rewrite nth_error_map, Hs.
  - intros H; inversion H; subst; clear H. rewrite in_map_iff. split.
    + intros (h' & E & Hin). inversion E; subst. apply In_nth_error in Hin as (j & Hj). eauto 6.
    + intros (hkl' & j & E & Hj & ->). inversion E; subst. exists h. split; auto. eapply nth_error_In; eauto.
Qed.

Definition row10 (e i : nat) (h : vec) (sf t : R) (G : vec) : list R :=
  [INR e; INR i; vx h; vy h; vz h; sf; t; vx G; vy G; vz G].

(** candidate times of the solver *)
Definition solves (rho : rho_factors) (dw : R) (G : vec) (t : R) : Prop :=
  0 <= t <= 1 /\ (fst (laue_candidates rho dw G) = Fin t \/ snd (laue_candidates rho dw G) = Fin t).

Definition row_event (p : polycrystal) (rho : rho_factors) (dw : R) (i : nat) (ph : phase) (r : list R) : Prop :=
  exists e h sf t G, in_phase p e i /\ plane_of ph h sf /\ scattering_vector p e h G /\
    solves rho dw G t /\ r = row10 e i h sf t G.

Lemma phase_rows_in p rho dw i ph rs r : phase_rows p rho dw i ph = Ok rs ->
  (In r rs <-> row_event p rho dw i ph r).
Proof.
  unfold phase_rows, row_event, in_phase. destruct (pc_map p) as [l|l] eqn:EM; [discriminate|]. simpl map_values.
  intros H. destruct (used_planes ph) as [planes|] eqn:E1; cbn [bind] in H; [|discriminate].
  destruct (gather (pc_U p) _) as [us|] eqn:E2; cbn [bind] in H; [|discriminate].
  destruct (gather (pc_eB p) _) as [bs|] eqn:E3; cbn [bind] in H; [|discriminate].
  set (G0 := map _ (combine us bs)) in H.
  destruct (find_solutions rho dw G0) as [evs|] eqn:E4; cbn [bind] in H; [|discriminate].
  apply gather_spec in E2. apply gather_spec in E3. apply traverse_spec in H.
  assert (CELL : forall g k G, cell G0 g k = Some G <->
     exists e U B h sf, nth_error (where_eq l i) g = Some e /\ nth_error (pc_U p) e = Some U /\
       nth_error (pc_eB p) e = Some B /\ nth_error planes k = Some (h, sf) /\ G = mv U (mv B h)).
  { intros g k G. unfold cell, G0. rewrite nth_error_map. split.
    - destruct (nth_error (combine us bs) g) as [[U B]|] eqn:E; [|discriminate]. cbn [option_map fst snd].
      rewrite nth_error_map. destruct (nth_error planes k) as [[h sf]|] eqn:Ek; [|discriminate].
      cbn [option_map fst]. intros HG. inversion HG. apply nth_error_combine in E as (EU & EB).
      destruct (nth_error_lt (where_eq l i) g) as (e & He).
      { rewrite (Forall2_len _ _ _ E2). eapply nth_error_lt'; eauto. }
      exists e, U, B, h, sf. repeat split; auto.
      + pose proof (Forall2_nth' _ _ _ _ _ _ E2 He EU); auto.
      + pose proof (Forall2_nth' _ _ _ _ _ _ E3 He EB); auto.
      + unfold get_G. now rewrite mv_mm.
    - intros (e & U & B & h & sf & He & HU & HB & Hk & ->).
      destruct (Forall2_nth _ _ _ _ _ E2 He) as (U' & EU & HU'). destruct (Forall2_nth _ _ _ _ _ E3 He) as (B' & EB & HB').
      rewrite HU in HU'. rewrite HB in HB'. inversion HU'; inversion HB'; subst U' B'.
      rewrite (combine_nth _ _ _ _ _ EU EB). cbn [option_map fst snd]. rewrite nth_error_map, Hk. cbn [option_map fst].
      unfold get_G. now rewrite mv_mm. }
  split.
  - intros Hr. destruct (Forall2_in_r _ _ _ _ H Hr) as (ev & Hev & Hrow).
    apply (in_find_solutions _ _ _ _ ev E4) in Hev as (Hc & Ht & Hs).
    apply CELL in Hc as (e & U & B & h & sf & He & HU & HB & Hk & HG).
    unfold peak_row10 in Hrow. rewrite He, Hk in Hrow. inversion Hrow; subst r.
    exists e, h, sf, (ev_time ev), (ev_G ev). repeat split; try apply Ht; auto.
    + apply where_eq_in. eapply nth_error_In; eauto.
    + apply (used_planes_in _ _ _ _ E1). eapply nth_error_In; eauto.
    + exists U, B. auto.
  - intros (e & h & sf & t & G & He & Hp & (U & B & HU & HB & HG) & (Ht & Hs) & ->).
    apply where_eq_in, In_nth_error in He as (g & Hg). apply (used_planes_in _ _ _ _ E1), In_nth_error in Hp as (k & Hk).
    assert (Hev : In (Event g k t G) evs).
    { apply (in_find_solutions _ _ _ _ _ E4); cbn [ev_grain ev_plane ev_time ev_G]. split; [|auto].
      apply CELL. exists e, U, B, h, sf. auto. }
    destruct (Forall2_in_l _ _ _ _ H Hev) as (r & Hr & Hrow). unfold peak_row10 in Hrow. cbn [ev_grain ev_plane ev_time ev_G] in Hrow.
    rewrite Hg, Hk in Hrow. inversion Hrow. subst r. exact Hr.
Qed.

Lemma phase_rows_total x p rho dw i ph l : wf x p -> pc_map p = MapTensor l -> (i < len (pc_phases p))%nat ->
  (exists planes, used_planes ph = Ok planes) -> exists rs, phase_rows p rho dw i ph = Ok rs.
Proof.
  intros (A1 & A2 & A3 & A4 & A5 & A6) EM Hi (planes & E1). unfold phase_rows. rewrite EM, E1. cbn [bind].
  assert (K : forall e, In e (where_eq l i) -> (e < len (pc_volumes p))%nat).
  { intros e He. apply (A5 e i); auto. unfold in_phase. rewrite EM. simpl. now apply where_eq_in. }
  destruct (gather_total (pc_U p) (where_eq l i)) as (us & E2). { intros e He. rewrite A1; auto. }
  destruct (gather_total (pc_eB p) (where_eq l i)) as (bs & E3). { intros e He. rewrite A3; auto. }
  rewrite E2, E3. cbn [bind]. set (G0 := map _ (combine us bs)).
  destruct (find_solutions_total rho dw G0) as (evs & E4). rewrite E4. cbn [bind].
  apply traverse_ok. intros ev Hev. apply (in_find_solutions _ _ _ _ ev E4) in Hev as (Hc & _).
  unfold cell, G0 in Hc. rewrite nth_error_map in Hc.
  destruct (nth_error (combine us bs) (ev_grain ev)) as [[U B]|] eqn:Ec; [|discriminate]. cbn [option_map] in Hc.
  rewrite nth_error_map in Hc. unfold peak_row10.
  destruct (nth_error planes (ev_plane ev)) as [[h sf]|]; [|discriminate].
  apply nth_error_combine in Ec as (Ec & _).
  destruct (nth_error_lt (where_eq l i) (ev_grain ev)) as (e & He).
  { rewrite (Forall2_len _ _ _ (gather_spec _ _ _ E2)). eapply nth_error_lt'; eauto. }
  rewrite He. eauto.
Qed.

Lemma combine_seq_in {A} (l : list A) i a : In (i, a) (combine (seq 0 (len l)) l) <-> nth_error l i = Some a.
Proof.
  split.
  - intros H. apply In_nth_error in H as (k & Hk). apply nth_error_combine in Hk as (H1 & H2).
    assert (k < len (seq 0 (len l)))%nat as L by (eapply nth_error_lt'; eauto). rewrite seq_length in L.
    rewrite (nth_error_nth' _ 0%nat) in H1 by (rewrite seq_length; auto). rewrite seq_nth in H1 by auto.
    inversion H1; subst. auto.
  - intros H. pose proof (nth_error_lt' _ _ _ H) as L. apply nth_error_In with (n := i). apply combine_nth; auto.
    rewrite (nth_error_nth' _ 0%nat) by (rewrite seq_length; auto). rewrite seq_nth by auto. auto.
Qed.
Lemma rows10_in p phs rho dw rows r : rows10 p phs rho dw = Ok rows ->
  (In r rows <-> exists i ph, nth_error phs i = Some ph /\ row_event p rho dw i ph r).
Proof.
  unfold rows10. intros H. destruct (traverse _ _) as [parts|] eqn:E; cbn [bind] in H; [|discriminate].
  inversion H; subst rows. apply traverse_spec in E. rewrite in_concat. split.
  - intros (part & Hp & Hr). destruct (Forall2_in_r _ _ _ _ E Hp) as ((i & ph) & Hi & Hrow). simpl in Hrow.
    apply combine_seq_in in Hi. exists i, ph. split; auto. now apply (phase_rows_in _ _ _ _ _ _ r Hrow).
  - intros (i & ph & Hi & Hev). apply combine_seq_in in Hi. destruct (Forall2_in_l _ _ _ _ E Hi) as (part & Hp & Hrow).
    simpl in Hrow. exists part. split; auto. now apply (phase_rows_in _ _ _ _ _ _ r Hrow).
Qed.
Lemma rows10_total x p phs rho dw l : wf x p -> pc_map p = MapTensor l -> len phs = len (pc_phases p) ->
  (forall ph, In ph phs -> exists planes, used_planes ph = Ok planes) -> exists rows, rows10 p phs rho dw = Ok rows.
Proof.
  intros W EM L H. unfold rows10.
  destruct (traverse_ok (fun iph => phase_rows p rho dw (fst iph) (snd iph)) (combine (seq 0 (len phs)) phs)) as (parts & ->).
  { intros (i & ph) Hi. apply combine_seq_in in Hi. simpl. eapply phase_rows_total; eauto.
    - rewrite <- L. eapply nth_error_lt'; eauto. - apply H. eapply nth_error_In; eauto. }
  simpl. eauto.
Qed.

(** ** The 24 columns *)
Lemma trunc_nat_INR n : trunc_nat (INR n) = n.
Proof.
  unfold trunc_nat. rewrite (Int_part_eq (INR n) (Z.of_nat n)); [apply Nat2Z.id|].
  rewrite <- INR_IZR_INZ. lra.
Qed.
Lemma grain_of_row10 e i h sf t G : grain_of (row10 e i h sf t G) = e.
Proof. unfold grain_of, rcol, row10; simpl. apply trunc_nat_INR. Qed.
Lemma rvec_row10 e i h sf t G : rvec (row10 e i h sf t G) 7 = G.
Proof. unfold rvec, rcol, row10; simpl. destruct G; auto. Qed.

Definition full_row (z : bool) (b : beam) (m : motion) (r : list R) (c : vec) (v : R) : list num :=
  let t := rcol r 6 in
  let G := rot_at m t (rvec r 7) in
  let K := vadd G (b_wave_vector b) in
  row24 r G K (move_at m t c) (lorentz z (b_wave_vector b) (m_axis m) K) (polarization (b_polarization b) K)
    (Fin v) (two_theta (b_wave_vector b) K) (scherrer_num z v (two_theta (b_wave_vector b) K) (b_wavelength b)).

Lemma rotate_P2_S1 m l ts : len ts = len l ->
  motion_rotate m (P2 l) (S1 ts) = Ok (P2 (zip_with (rot_at m) ts l)).
Proof.
  intros L. unfold motion_rotate, rotator_call, rotator_rows; simpl. rewrite map_length, L, Nat.eqb_refl.
  rewrite zip_with_map_l. reflexivity.
Qed.
Lemma compute_peaks_rows z p phs b m rows cents vols :
  rows10 p phs (laue_factors (b_wave_vector b) (m_axis m)) (m_angle m) = Ok rows ->
  gather (me_espherecentroids (pc_mesh_lab p)) (map grain_of rows) = Ok cents ->
  gather (pc_volumes p) (map grain_of rows) = Ok vols ->
  compute_peaks z p phs b m =
    if Nat.eqb (len rows) 1 then Err IndexError
    else Ok (map (fun t => full_row z b m (fst (fst t)) (snd (fst t)) (snd t)) (zip3 rows cents vols)).
Proof.
  intros H1 H2 H3. unfold compute_peaks. cbv zeta. rewrite H1. cbn [bind].
  rewrite rotate_P2_S1 by (rewrite !map_length; auto). cbn [bind rows_of].
  rewrite H2. cbn [bind].
  pose proof (Forall2_len _ _ _ (gather_spec _ _ _ H2)) as L2. pose proof (Forall2_len _ _ _ (gather_spec _ _ _ H3)) as L3.
  rewrite map_length in L2, L3.
  rewrite call_P2_S1 by (rewrite map_length; auto). cbn [bind rows_of].
  rewrite H3. cbn [bind]. rewrite pC59_lorentz_batch.
  rewrite map_length, zip_with_length, map_length by (rewrite !map_length; auto).
  destruct (Nat.eqb (len rows) 1); cbn [bind]; auto. f_equal.
  rewrite zip_with_map_l, zip_with_map_r.
  clear H1 H2 H3. revert cents vols L2 L3. unfold zip3.
  induction rows as [|r rows IH]; intros [|c cents] [|v vols] L2 L3; simpl in L2, L3; try discriminate; [reflexivity|].
  cbn [map zip_with combine].
  specialize (IH cents vols (f_equal pred L2) (f_equal pred L3)). rewrite <- IH. rewrite zip_with_map_l. reflexivity.
Qed.
Lemma compute_peaks_inv z p phs b m out : compute_peaks z p phs b m = Ok out ->
  exists rows cents vols,
    rows10 p phs (laue_factors (b_wave_vector b) (m_axis m)) (m_angle m) = Ok rows /\
    gather (me_espherecentroids (pc_mesh_lab p)) (map grain_of rows) = Ok cents /\
    gather (pc_volumes p) (map grain_of rows) = Ok vols /\ len rows <> 1%nat /\
    out = map (fun t => full_row z b m (fst (fst t)) (snd (fst t)) (snd t)) (zip3 rows cents vols).
Proof.
  intros H. destruct (rows10 p phs (laue_factors (b_wave_vector b) (m_axis m)) (m_angle m)) as [rows|] eqn:E1.
  2:{ unfold compute_peaks in H. cbv zeta in H. rewrite E1 in H. discriminate. }
  destruct (gather (me_espherecentroids (pc_mesh_lab p)) (map grain_of rows)) as [cents|] eqn:E2.
  2:{ unfold compute_peaks in H. cbv zeta in H. rewrite E1 in H. cbn [bind] in H.
      rewrite rotate_P2_S1 in H by (rewrite !map_length; auto). cbn [bind rows_of] in H. rewrite E2 in H. discriminate. }
  destruct (gather (pc_volumes p) (map grain_of rows)) as [vols|] eqn:E3.
  2:{ unfold compute_peaks in H. cbv zeta in H. rewrite E1 in H. cbn [bind] in H.
      rewrite rotate_P2_S1 in H by (rewrite !map_length; auto). cbn [bind rows_of] in H. rewrite E2 in H. cbn [bind] in H.
      rewrite call_P2_S1 in H by (rewrite map_length, <- (Forall2_len _ _ _ (gather_spec _ _ _ E2)), map_length; auto).
      cbn [bind] in H. rewrite E3 in H. discriminate. }
  rewrite (compute_peaks_rows _ _ _ _ _ _ _ _ E1 E2 E3) in H.
  destruct (Nat.eqb_spec (len rows) 1); [discriminate|]. inversion H. exists rows, cents, vols. auto 10.
Qed.
Lemma zip3_in {A B C} (l : list A) (m : list B) (n : list C) a b c :
  In (a, b, c) (zip3 l m n) <->
  exists k, nth_error l k = Some a /\ nth_error m k = Some b /\ nth_error n k = Some c.
Proof.
  unfold zip3. split.
  - intros H. apply In_nth_error in H as (k & Hk). apply nth_error_combine in Hk as (H1 & H2).
    apply nth_error_combine in H1 as (H0 & H1). eauto.
  - intros (k & H0 & H1 & H2). eapply nth_error_In with (n := k). repeat apply combine_nth; auto.
Qed.

Definition peak_at (z : bool) (p p' : polycrystal) (b : beam) (m : motion) (o : list num) : Prop :=
  exists i ph e h sf t G c v,
    nth_error (pc_phases p') i = Some ph /\ in_phase p e i /\ plane_of ph h sf /\ scattering_vector p e h G /\
    solves (laue_factors (b_wave_vector b) (m_axis m)) (m_angle m) G t /\
    nth_error (me_espherecentroids (pc_mesh_lab p)) e = Some c /\ nth_error (pc_volumes p) e = Some v /\
    o = full_row z b m (row10 e i h sf t G) c v.

Lemma compute_peaks_in z p p' b m out : pc_map p' = pc_map p -> pc_U p' = pc_U p -> pc_eB p' = pc_eB p ->
  pc_mesh_lab p' = pc_mesh_lab p -> pc_volumes p' = pc_volumes p ->
  compute_peaks z p' (pc_phases p') b m = Ok out -> forall o, In o out <-> peak_at z p p' b m o.
Proof.
  intros M1 M2 M3 M4 M5 H o. apply compute_peaks_inv in H as (rows & cents & vols & E1 & E2 & E3 & L & ->).
  rewrite M4 in E2. rewrite M5 in E3. apply gather_spec in E2. apply gather_spec in E3. rewrite in_map_iff.
  assert (RE : forall i ph r, row_event p' (laue_factors (b_wave_vector b) (m_axis m)) (m_angle m) i ph r <->
     row_event p (laue_factors (b_wave_vector b) (m_axis m)) (m_angle m) i ph r).
  { intros i ph r. unfold row_event, in_phase, scattering_vector. rewrite M1, M2, M3. tauto. }
  split.
  - intros (((r & c) & v) & <- & Hin). cbn [fst snd]. apply zip3_in in Hin as (k & K1 & K2 & K3).
    assert (Hr : In r rows) by (eapply nth_error_In; eauto).
    apply (rows10_in _ _ _ _ _ r E1) in Hr as (i & ph & Hi & Hev). apply RE in Hev as (e & h & sf & t & G & He & Hp & HG & Hs & ->).
    assert (Kg : nth_error (map grain_of rows) k = Some e) by (rewrite nth_error_map, K1; simpl; now rewrite grain_of_row10).
    exists i, ph, e, h, sf, t, G, c, v. repeat match goal with |- _ /\ _ => split end; auto; try apply Hs.
    + exact (Forall2_nth' _ _ _ _ _ _ E2 Kg K2).
    + exact (Forall2_nth' _ _ _ _ _ _ E3 Kg K3).
  - intros (i & ph & e & h & sf & t & G & c & v & Hi & He & Hp & HG & Hs & Hc & Hv & ->).
    assert (Hr : In (row10 e i h sf t G) rows).
    { apply (rows10_in _ _ _ _ _ _ E1). exists i, ph. split; auto. apply RE. exists e, h, sf, t, G. auto. }
    apply In_nth_error in Hr as (k & K1).
    assert (Kg : nth_error (map grain_of rows) k = Some e) by (rewrite nth_error_map, K1; simpl; now rewrite grain_of_row10).
    destruct (Forall2_nth _ _ _ _ _ E2 Kg) as (c' & K2 & Hc'). destruct (Forall2_nth _ _ _ _ _ E3 Kg) as (v' & K3 & Hv').
    rewrite Hc in Hc'. rewrite Hv in Hv'. inversion Hc'; inversion Hv'; subst c' v'.
    exists (row10 e i h sf t G, c, v). split; auto. apply zip3_in. exists k. auto.
Qed.

Lemma illuminated_full z b m e i h sf t G c v :
  illuminated b (full_row z b m (row10 e i h sf t G) c v) = beam_contains (b_halfspaces b) (move_at m t c).
Proof.
  unfold full_row. cbv zeta. change (rcol (row10 e i h sf t G) 6) with t. generalize (move_at m t c). intros [sx sy sz].
  reflexivity.
Qed.

Lemma diffract_inv z x p b m lo hi det d p' : diffract z x p b m lo hi det = (Ok d, p') ->
  exists out, compute_peaks z p' (pc_phases p') b m = Ok out /\
    d = PD (mapi (fun i r => r ++ [Fin (INR i)]) (filter (illuminated b) out)) column_names
              (b_wave_vector b) (b_wavelength b) (m_axis m) (pc_mesh_lab p) m b /\
    pc_map p' = pc_map p /\ pc_U p' = pc_U p /\ pc_eB p' = pc_eB p /\ pc_mesh_lab p' = pc_mesh_lab p /\
    pc_volumes p' = pc_volumes p.
Proof.
  unfold diffract. destruct (match det with None => _ | Some d => _ end) as [[lo' hi']|e]; [|discriminate].
  intros H. inversion H as [[H1 H2]]. clear H.
  destruct (compute_peaks _ _ _ _ _) as [out|] eqn:E; cbn [bind] in H1; [|discriminate].
  exists out. simpl. inversion H1. auto 10.
Qed.

Lemma peaks_iff z x p b m lo hi det d p' k row : diffract z x p b m lo hi det = (Ok d, p') ->
  nth_error (pd_peaks d) k = Some row ->
  exists i ph e h sf t G c v,
    nth_error (pc_phases p') i = Some ph /\ in_phase p e i /\ plane_of ph h sf /\ scattering_vector p e h G /\
    solves (laue_factors (b_wave_vector b) (m_axis m)) (m_angle m) G t /\
    nth_error (me_espherecentroids (pc_mesh_lab p)) e = Some c /\ nth_error (pc_volumes p) e = Some v /\
    beam_contains (b_halfspaces b) (move_at m t c) = true /\
    row = full_row z b m (row10 e i h sf t G) c v ++ [Fin (INR k)].
Proof.
  intros H Hk. apply diffract_inv in H as (out & E & -> & M1 & M2 & M3 & M4 & M5). simpl in Hk.
  rewrite mapi_nth_error in Hk. destruct (nth_error (filter _ out) k) as [o|] eqn:Ek; [|discriminate].
  simpl in Hk. inversion Hk; subst row. apply nth_error_In in Ek. apply filter_In in Ek as (Ho & Hl).
  apply (compute_peaks_in _ _ _ _ _ _ M1 M2 M3 M4 M5 E) in Ho as (i & ph & e & h & sf & t & G & c & v & A).
  destruct A as (A1 & A2 & A3 & A4 & A5 & A6 & A7 & ->). rewrite illuminated_full in Hl.
  exists i, ph, e, h, sf, t, G, c, v. auto 12.
Qed.
Lemma peaks_complete z x p b m lo hi det d p' i ph e h sf t G c v : diffract z x p b m lo hi det = (Ok d, p') ->
    nth_error (pc_phases p') i = Some ph -> in_phase p e i -> plane_of ph h sf -> scattering_vector p e h G ->
    solves (laue_factors (b_wave_vector b) (m_axis m)) (m_angle m) G t ->
    nth_error (me_espherecentroids (pc_mesh_lab p)) e = Some c -> nth_error (pc_volumes p) e = Some v ->
    beam_contains (b_halfspaces b) (move_at m t c) = true ->
  exists k, nth_error (pd_peaks d) k = Some (full_row z b m (row10 e i h sf t G) c v ++ [Fin (INR k)]).
Proof.
  intros H A1 A2 A3 A4 A5 A6 A7 A8. apply diffract_inv in H as (out & E & -> & M1 & M2 & M3 & M4 & M5). simpl.
  assert (Ho : In (full_row z b m (row10 e i h sf t G) c v) (filter (illuminated b) out)).
  { apply filter_In. rewrite illuminated_full. split; auto. apply (compute_peaks_in _ _ _ _ _ _ M1 M2 M3 M4 M5 E).
    exists i, ph, e, h, sf, t, G, c, v. auto 10. }
  apply In_nth_error in Ho as (k & Hk). exists k. rewrite mapi_nth_error, Hk. reflexivity.
Qed.

Lemma columns_of z x p b m lo hi det d p' : diffract z x p b m lo hi det = (Ok d, p') -> pd_columns d = column_names.
Proof. intros H. apply diffract_inv in H as (out & E & -> & _). reflexivity. Qed.
Lemma vadd_comm' a b : vadd a b = vadd b a. Proof. apply vadd_comm. Qed.

(** ** C10 *)
(** C10. Every row of a peak table describes one diffraction event of one
    element: element and phase index, a plane of that phase with its squared
    structure factor, the time, G0 = U B hkl, G = the rotated G0, K_out = k + G,
    the source point, and the intensity factors of exactly these quantities. *)
Lemma pC10_peak_contents : forall z x p b m lo hi det d p' row,
  diffract z x p b m lo hi det = (Ok d, p') -> In row (pd_peaks d) ->
  exists e i ph h sf t G0 G c s v,
    in_phase p e i /\ nth_error (pc_phases p') i = Some ph /\ plane_of ph h sf /\
    scattering_vector p e h G0 /\ 0 <= t <= 1 /\
    motion_rotate m (P1 G0) (S0 t) = Ok (P1 G) /\
    nth_error (me_espherecentroids (pc_mesh_lab p)) e = Some c /\ motion_call m (P1 c) (S0 t) = Ok (P1 s) /\
    nth_error (pc_volumes p) e = Some v /\
    has d row "grain_index" (INR e) /\ has d row "phase_number" (INR i) /\
    has_vec d row "h" "k" "l" h /\ has d row "structure_factors" sf /\ has d row "diffraction_times" t /\
    has_vec d row "G0_x" "G0_y" "G0_z" G0 /\ has_vec d row "Gx" "Gy" "Gz" G /\
    has_vec d row "K_out_x" "K_out_y" "K_out_z" (vadd (b_wave_vector b) G) /\
    has_vec d row "Source_x" "Source_y" "Source_z" s /\
    field d row "lorentz_factors" = Some (lorentz z (b_wave_vector b) (m_axis m) (vadd (b_wave_vector b) G)) /\
    field d row "polarization_factors" = Some (polarization (b_polarization b) (vadd (b_wave_vector b) G)) /\
    has d row "volumes" v /\
    (forall tth, has d row "2theta" tth ->
       field d row "scherrer_fwhm" = Some (scherrer z v tth (b_wavelength b))).
Proof.
  intros z x p b m lo hi det d p' row H Hin. apply In_nth_error in Hin as (k & Hk).
  pose proof (columns_of _ _ _ _ _ _ _ _ _ _ H) as HC.
  destruct (peaks_iff _ _ _ _ _ _ _ _ _ _ _ _ H Hk) as (i & ph & e & h & sf & t & G0 & c & v & A1 & A2 & A3 & A4 & A5 & A6 & A7 & A8 & ->).
  exists e, i, ph, h, sf, t, G0, (rot_at m t G0), c, (move_at m t c), v.
  unfold has_vec, has, field. rewrite HC. rewrite (vadd_comm (b_wave_vector b)).
  unfold full_row. cbv zeta. rewrite rvec_row10. change (rcol (row10 e i h sf t G0) 6) with t.
  repeat match goal with |- _ /\ _ => split end; auto; try apply A5; try reflexivity; try (apply rotate_P1_S0); try (apply call_P1_S0).
  intros tth. cbn. intros Ht. inversion Ht as [Ht']. rewrite Ht'. reflexivity.
Qed.

(** ** C11 *)
Lemma solves_laue k a w T o m G t : make_motion a w T o = Ok m -> unit a ->
  solves (laue_factors k (m_axis m)) (m_angle m) G t -> laue_condition k (rot_at m t G).
Proof.
  intros Hm U (Ht & Hc). apply make_motion_ok_iff in Hm as (W & _ & ->). cbn [m_axis m_angle] in *.
  unfold rot_at; cbn [m_axis m_angle]. apply laue_condition_iff; auto.
  apply candidate_sound; [lra|]. auto.
Qed.
Lemma two_theta_elastic k K : k <> vzero -> norm K = norm k -> two_theta k K = Fin (scattering_angle k K).
Proof.
  intros Hk HK. pose proof (norm_pos k Hk) as Hn. unfold two_theta. destruct (Req_EM_T (norm K) 0); [lra|].
  rewrite HK. assert (E : dot (vdiv k (norm k)) (vdiv K (norm k)) = dot k K / normsq k).
  { rewrite <- norm_sq. unfold vdiv, dot; simpl. field. lra. }
  rewrite E. apply nacos_in. now apply kk_range.
Qed.
Lemma bragg_identity k G tt : k <> vzero -> norm (vadd k G) = norm k -> tt = scattering_angle k (vadd k G) ->
  0 <= tt <= PI /\ cos tt = dot k (vadd k G) / normsq k /\ norm G = 2 * norm k * sin (tt / 2).
Proof.
  intros Hk HK ->. pose proof (kk_range _ _ Hk HK) as Hr. unfold scattering_angle. set (x := dot k (vadd k G) / normsq k) in *.
  pose proof (acos_bound x) as Hb. pose proof (norm_pos k Hk) as Hn. split; [lra|]. split; [now rewrite cos_acos|].
  assert (Hs : 0 <= sin (acos x / 2)) by (apply sin_ge_0; pose proof PI_RGT_0; lra).
  apply Rsqr_inj; [apply norm_nonneg|nra|]. unfold Rsqr. rewrite norm_sq.
  assert (C : x = 1 - 2 * sin (acos x / 2) * sin (acos x / 2)).
  { rewrite <- (cos_acos x Hr) at 1. replace (acos x) with (2 * (acos x / 2)) at 1 by lra. apply cos_2a_sin. }
  apply norm_eq_normsq in HK. rewrite normsq_add in HK.
  assert (Hx : x * normsq k = dot k (vadd k G)) by (unfold x; field; apply Rgt_not_eq, normsq_pos; auto).
  replace (dot k (vadd k G)) with (normsq k + dot k G) in Hx by (vdes; vunf; ring).
  assert (normsq k = norm k * norm k) by (now rewrite norm_sq). nra.
Qed.

(** C11. Bragg's law for reported peaks: elastic scattering and
    |G0| = 2|k| sin(theta), i.e. lambda |G0| = 4 pi sin(theta), where 2theta is the
    angle between the incoming and the scattered wave vector. *)
Lemma pC11_bragg : forall q z x p b a w T o m lo hi det d p' row,
  reachable_beam q b -> make_motion a w T o = Ok m -> unit a ->
  diffract z x p b m lo hi det = (Ok d, p') -> In row (pd_peaks d) ->
  exists G0 K tth,
    has_vec d row "G0_x" "G0_y" "G0_z" G0 /\ has_vec d row "K_out_x" "K_out_y" "K_out_z" K /\
    has d row "2theta" tth /\
    norm K = norm (b_wave_vector b) /\ 0 <= tth <= PI /\
    dot (b_wave_vector b) K = norm (b_wave_vector b) * norm K * cos tth /\
    norm G0 = 2 * norm (b_wave_vector b) * sin (tth / 2) /\
    b_wavelength b * norm G0 = 4 * PI * sin (tth / 2).
Proof.
  intros q z x p b a w T o m lo hi det d p' row Hb Hm U H Hin. apply In_nth_error in Hin as (k & Hk).
  pose proof (columns_of _ _ _ _ _ _ _ _ _ _ H) as HC.
  destruct (beam_inv _ _ Hb) as (Hl & Hn & _).
  destruct (peaks_iff _ _ _ _ _ _ _ _ _ _ _ _ H Hk) as (i & ph & e & h & sf & t & G0 & c & v & A1 & A2 & A3 & A4 & A5 & A6 & A7 & A8 & ->).
  pose proof (solves_laue _ _ _ _ _ _ _ _ Hm U A5) as HL. unfold laue_condition in HL.
  set (kv := b_wave_vector b) in *. set (G := rot_at m t G0) in *.
  assert (Hk0 : kv <> vzero).
  { intros E. rewrite E in Hn. unfold norm in Hn. replace (normsq vzero) with 0 in Hn by (vunf; ring). rewrite sqrt_0 in Hn.
    assert (0 < 2 * PI / b_wavelength b) by (apply Rdiv_lt_0_compat; auto; pose proof PI_RGT_0; lra). lra. }
  destruct (bragg_identity kv G _ Hk0 HL eq_refl) as (B1 & B2 & B3).
  assert (HG : norm G = norm G0).
  { unfold G, rot_at. apply make_motion_ok_iff in Hm as (_ & _ & ->). simpl. apply rotation_norm, rod_rotation; auto. }
  exists G0, (vadd kv G), (scattering_angle kv (vadd kv G)).
  unfold has_vec, has, field. rewrite HC.
  unfold full_row. cbv zeta. rewrite rvec_row10. change (rcol (row10 e i h sf t G0) 6) with t. fold G. fold kv.
  rewrite (vadd_comm G kv). rewrite (two_theta_elastic kv (vadd kv G) Hk0 HL).
  repeat match goal with |- _ /\ _ => split end; try reflexivity; try apply B1; auto.
  - rewrite B2, HL. rewrite <- norm_sq. field. apply Rgt_not_eq, norm_pos; auto.
  - congruence.
  - rewrite <- HG, B3, Hn. field. lra.
Qed.

(** ** C12 *)
(** C12. The table has 25 distinct column names, every row has 25 entries, the
    peak index column counts rows from 0, and every row's source point is
    strictly inside the beam. *)
Lemma pC12_table_shape : forall z x p b m lo hi det d p',
  diffract z x p b m lo hi det = (Ok d, p') ->
  List.length (pd_columns d) = 25%nat /\ NoDup (pd_columns d) /\
  forall k row, nth_error (pd_peaks d) k = Some row ->
    List.length row = 25%nat /\ has d row "peak_index" (INR k) /\
    exists s, has_vec d row "Source_x" "Source_y" "Source_z" s /\ strictly_inside (b_halfspaces b) s.
Proof.
  intros z x p b m lo hi det d p' H. pose proof (columns_of _ _ _ _ _ _ _ _ _ _ H) as HC. rewrite HC.
  split; [reflexivity|]. split.
  { unfold column_names. repeat (constructor; [simpl; intuition discriminate|]). constructor. }
  intros k row Hk.
  destruct (peaks_iff _ _ _ _ _ _ _ _ _ _ _ _ H Hk) as (i & ph & e & h & sf & t & G0 & c & v & A1 & A2 & A3 & A4 & A5 & A6 & A7 & A8 & ->).
  split; [reflexivity|]. unfold has_vec, has, field. rewrite HC. split; [reflexivity|].
  exists (move_at m t c). split; [repeat split; reflexivity|]. now apply contains_iff.
Qed.
(** C12. Completeness: every element, plane and time in [0,1] at which the rotated
    scattering vector satisfies the Laue condition and the element's centre is
    strictly inside the beam has a row (unless the reflection also satisfies the
    Laue condition half a turn away, the solver's blind spot, C08). *)
Lemma pC12_complete : forall z x p b a w T o m lo hi det d p' e i ph h sf t G0 G c s,
  reachable_pc x p -> make_motion a w T o = Ok m -> unit a ->
  diffract z x p b m lo hi det = (Ok d, p') ->
  in_phase p e i -> nth_error (pc_phases p') i = Some ph -> plane_of ph h sf -> scattering_vector p e h G0 ->
  0 <= t <= 1 -> motion_rotate m (P1 G0) (S0 t) = Ok (P1 G) -> laue_condition (b_wave_vector b) G ->
  ~ laue_condition (b_wave_vector b) (right_handed_rotation a PI G0) ->
  nth_error (me_espherecentroids (pc_mesh_lab p)) e = Some c -> motion_call m (P1 c) (S0 t) = Ok (P1 s) ->
  strictly_inside (b_halfspaces b) s ->
  exists row, In row (pd_peaks d) /\ has d row "grain_index" (INR e) /\ has d row "phase_number" (INR i) /\
    has_vec d row "h" "k" "l" h /\ has d row "diffraction_times" t.
Proof.
  intros z x p b a w T o m lo hi det d p' e i ph h sf t G0 G c s HR Hm U H He Hi Hp HG Ht Hrot HL Hnb Hc Hs Hin.
  pose proof (columns_of _ _ _ _ _ _ _ _ _ _ H) as HC.
  apply make_motion_ok_iff in Hm as (W & _ & ->).
  rewrite rotate_P1_S0 in Hrot. apply okP1_inj in Hrot. subst G. rewrite call_P1_S0 in Hs. apply okP1_inj in Hs. subst s.
  destruct (wf_reachable _ _ HR) as (L1 & L2 & L3 & L4 & _).
  destruct (nth_error_lt (pc_volumes p) e) as (v & Hv). { rewrite <- L4. eapply nth_error_lt'; eauto. }
  assert (Hsol : solves (laue_factors (b_wave_vector b) (m_axis (Motion a w T o))) (m_angle (Motion a w T o)) G0 t).
  { split; auto. unfold rot_at in HL. cbn [m_axis m_angle] in *. apply laue_condition_iff in HL; auto.
    apply candidate_complete; auto. intros E. apply Hnb. rewrite <- rod_spec by auto. apply laue_condition_iff; auto.
    rewrite cos_PI, sin_PI. lra. }
  destruct (peaks_complete _ _ _ _ _ _ _ _ _ _ i ph e h sf t G0 c v H Hi He Hp HG Hsol Hc Hv) as (k & Hk).
  { now apply contains_iff. }
  eexists. split; [eapply nth_error_In; eauto|]. unfold has_vec, has, field. rewrite HC. repeat split; reflexivity.
Qed.

(** ** C13 *)
Lemma hits_row_count (sel : vec -> num) g (row : list vec) : forall i,
  len (List.concat (mapi_from i (fun p G => match in_unit_interval (sel G) with Some t => [Hit g p t] | None => [] end) row))
  = list_sum (map (fun G => in01 (sel G)) row).
Proof.
  induction row as [|G row IH]; intros i; [reflexivity|]. cbn [mapi_from List.concat map]. rewrite app_length, IH.
  change (list_sum (in01 (sel G) :: map (fun G1 : vec => in01 (sel G1)) row))
    with (in01 (sel G) + list_sum (map (fun G1 : vec => in01 (sel G1)) row))%nat. f_equal.
  unfold in01. destruct (in_unit_interval (sel G)); reflexivity.
Qed.
Lemma hits_count (sel : vec -> num) G0 : forall i, len (List.concat (mapi_from i (hits_row sel) G0)) =
  list_sum (map (fun row => list_sum (map (fun G => in01 (sel G)) row)) G0).
Proof.
  induction G0 as [|row G0 IH]; intros i; [reflexivity|]. cbn [mapi_from List.concat map]. rewrite app_length, IH.
  cbn [list_sum fold_right]. f_equal. apply hits_row_count.
Qed.
Lemma list_sum_plus {A} (f g : A -> nat) l :
  list_sum (map (fun x => f x + g x)%nat l) = (list_sum (map f l) + list_sum (map g l))%nat.
Proof. induction l; simpl; auto. unfold list_sum in *. simpl. lia. Qed.
Lemma list_sum_ext {A} (f g : A -> nat) l : (forall x, In x l -> f x = g x) -> list_sum (map f l) = list_sum (map g l).
Proof. intros H. f_equal. apply map_ext_in. auto. Qed.
Lemma find_count f w G0 evs : find_solutions f w G0 = Ok evs ->
  len evs = list_sum (map (fun row => list_sum (map (fun G => in01 (fst (laue_candidates f w G)) + in01 (snd (laue_candidates f w G)))%nat row)) G0).
Proof.
  unfold find_solutions. intros H. apply traverse_length in H. rewrite H, app_length. unfold hits, mapi. rewrite !hits_count.
  rewrite <- list_sum_plus. apply list_sum_ext. intros row _. now rewrite list_sum_plus.
Qed.
Lemma phase_rows_count p b m i ph rs :
  phase_rows p (laue_factors (b_wave_vector b) (m_axis m)) (m_angle m) i ph = Ok rs -> len rs = phase_events p b m i ph.
Proof.
  unfold phase_rows, phase_events. destruct (pc_map p) as [l|l] eqn:EM; [discriminate|]. simpl map_values. intros H.
  destruct (used_planes ph) as [planes|] eqn:E1; cbn [bind] in H; [|discriminate].
  destruct (gather (pc_U p) _) as [us|] eqn:E2; cbn [bind] in H; [|discriminate].
  destruct (gather (pc_eB p) _) as [bs|] eqn:E3; cbn [bind] in H; [|discriminate].
  set (G0 := map _ (combine us bs)) in H.
  destruct (find_solutions _ _ G0) as [evs|] eqn:E4; cbn [bind] in H; [|discriminate].
  apply traverse_length in H. rewrite H, (find_count _ _ _ _ E4). unfold G0. rewrite map_map.
  apply gather_spec in E2. apply gather_spec in E3. clear - E2 E3.
  revert bs E3. induction E2 as [|e U idx us HU HF IH]; intros bs E3; [reflexivity|].
  inversion E3; subst. simpl. unfold list_sum in *. simpl. rewrite IH by auto. f_equal.
  unfold element_events. rewrite HU, H1. unfold list_sum. f_equal. rewrite map_map. apply map_ext.
  intros hs. unfold reflection_times, get_G. now rewrite mv_mm.
Qed.
Lemma concat_length {A} (ll : list (list A)) : len (List.concat ll) = list_sum (map (@List.length A) ll).
Proof. induction ll; simpl; auto. rewrite app_length, IHll. reflexivity. Qed.
Lemma mapi_combine_seq {A B} (f : nat -> A -> B) l : forall i,
  mapi_from i f l = map (fun ia => f (fst ia) (snd ia)) (combine (seq i (len l)) l).
Proof. induction l; intros i; simpl; auto. now rewrite IHl. Qed.
Lemma rows10_count p phs b m rows :
  rows10 p phs (laue_factors (b_wave_vector b) (m_axis m)) (m_angle m) = Ok rows ->
  len rows = list_sum (mapi (phase_events p b m) phs).
Proof.
  unfold rows10. intros H. destruct (traverse _ _) as [parts|] eqn:E; cbn [bind] in H; [|discriminate].
  inversion H; subst rows. rewrite concat_length. apply traverse_spec in E.
  unfold mapi. rewrite mapi_combine_seq. clear H. f_equal.
  induction E as [|[i ph] part idx parts Hp HF IH]; simpl; auto. rewrite IH. f_equal. now apply phase_rows_count.
Qed.

Lemma reachable_phase_inv x ph : reachable_phase x ph -> ph_cif ph = None -> ph_sf ph = None.
Proof. induction 1; simpl; auto. intros E. rewrite E. auto. Qed.
Lemma setup_used x ph wl lo hi : xtal_ok x -> reachable_phase x ph -> exists planes, used_planes (setup_planes x ph wl lo hi) = Ok planes.
Proof.
  intros HX HR. unfold used_planes, setup_planes; simpl. destruct (ph_cif ph) as [cif|] eqn:E.
  - rewrite HX, Nat.eqb_refl. eauto.
  - rewrite (reachable_phase_inv _ _ HR E). eauto.
Qed.
Lemma limits_bounds p b lo hi det : limits_ok p b lo det -> exists lo' hi',
  match det with None => Ok (lo, hi) | Some d => bragg_bounds p d b lo end = Ok (lo', hi').
Proof.
  destruct det as [c|]; simpl; eauto. intros (H0 & r & Hc & Hlt). unfold bragg_bounds. rewrite Hc.
  apply Rleb_true in H0. rewrite H0. simpl. apply Rltb_true in Hlt. rewrite Hlt. simpl. eauto.
Qed.

(** C13. With a tensor phase map and acceptable limits a diffract call raises
    IndexError when the solver finds exactly one event in the whole sample (lit or
    not), and returns a table in every other case. *)
Lemma pC13_outcome : forall z x p b m lo hi det l,
  reachable_pc x p -> xtal_ok x -> pc_map p = MapTensor l -> limits_ok p b lo det ->
  let '(r, p') := diffract z x p b m lo hi det in
  (event_count p' b m = 1%nat -> r = Err IndexError) /\
  (event_count p' b m <> 1%nat -> exists d, r = Ok d).
Proof.
  intros z x p b m lo hi det l HR HX HM HL. unfold diffract.
  destruct (limits_bounds p b lo hi det HL) as (lo' & hi' & ->).
  set (phs := map _ (pc_phases p)). set (p' := PC _ _ _ _ phs _ _ _ _ _).
  pose proof (wf_reachable _ _ HR) as W. destruct W as (A1 & A2 & A3 & A4 & A5 & A6).
  assert (W' : wf x p').
  { unfold wf, p'; simpl. repeat split; auto; unfold phs.
    - intros e i He Hi. rewrite map_length in Hi. apply (A5 e i); auto.
    - apply Forall_forall. intros ph Hin. apply in_map_iff in Hin as (ph0 & <- & Hin). constructor.
      eapply Forall_forall in A6; eauto. }
  destruct (rows10_total x p' phs (laue_factors (b_wave_vector b) (m_axis m)) (m_angle m) l) as (rows & E1); auto.
  { intros ph Hin. apply in_map_iff in Hin as (ph0 & <- & Hin). apply setup_used; auto. eapply Forall_forall in A6; eauto. }
  assert (G : forall r, In r rows -> (grain_of r < len (pc_volumes p))%nat).
  { intros r Hr. apply (rows10_in _ _ _ _ _ r E1) in Hr as (i & ph & Hi & e & h & sf & t & G0 & He & _ & _ & _ & ->).
    rewrite grain_of_row10. apply (A5 e i); auto. apply nth_error_lt' in Hi. unfold phs in Hi. now rewrite map_length in Hi. }
  destruct (gather_total (me_espherecentroids (pc_mesh_lab p')) (map grain_of rows)) as (cents & E2).
  { intros g Hg. apply in_map_iff in Hg as (r & <- & Hr). simpl. rewrite A4. auto. }
  destruct (gather_total (pc_volumes p') (map grain_of rows)) as (vols & E3).
  { intros g Hg. apply in_map_iff in Hg as (r & <- & Hr). simpl. auto. }
  assert (C : event_count p' b m = len rows) by (symmetry; unfold event_count; apply rows10_count; auto).
  rewrite C. rewrite (compute_peaks_rows _ _ _ _ _ _ _ _ E1 E2 E3).
  destruct (Nat.eqb_spec (len rows) 1); cbn [bind]; split; intros; try contradiction; eauto.
Qed.

Lemma run_map z x ops : forall p, pc_map (pc_run z x ops p) = pc_map p /\ len (pc_phases (pc_run z x ops p)) = len (pc_phases p).
Proof.
  unfold pc_run. induction ops as [|o ops IH]; intros p; simpl; auto. destruct (IH (pc_step z x p o)) as (-> & ->).
  destruct o as [m t|b m lo hi det]; simpl; auto. destruct (diffract_state z x p b m lo hi det) as (phs & -> & Hp); simpl.
  split; auto. destruct Hp as [->|(? & ? & ->)]; rewrite ?map_length; auto.
Qed.
Lemma numpy_type_error z x p b m lo hi det l : pc_map p = MapNumpy l -> pc_phases p <> [] -> limits_ok p b lo det ->
  fst (diffract z x p b m lo hi det) = Err TypeError.
Proof.
  intros HM HP HL. unfold diffract. destruct (limits_bounds p b lo hi det HL) as (lo' & hi' & ->). simpl.
  unfold compute_peaks, rows10. cbv zeta. destruct (pc_phases p) as [|ph phs]; [contradiction|]. simpl.
  unfold phase_rows at 1. simpl. rewrite HM. reflexivity.
Qed.
(** C13. A polycrystal constructed without a phase map raises TypeError in every
    diffract call that gets past the angle limits, whatever was called before; the
    same object saved and loaded again does not (its outcomes are those of
    pC13_outcome). *)
Lemma pC13_no_phase_map : forall z x me o s ph p ops b m lo hi det,
  make_polycrystal x me o s [ph] None = Ok p ->
  let p1 := pc_run z x ops p in limits_ok p1 b lo det ->
  fst (diffract z x p1 b m lo hi det) = Err TypeError /\
  pc_map (reload p1) = MapTensor (repeat 0 (List.length (me_enod me))).
Proof.
  intros z x me o s ph p ops b m lo hi det H p1 HL. destruct (run_map z x ops p) as (HM & HN). fold p1 in HM, HN.
  apply make_pc_inv in H as (tets & U & eps & pm & eB & H0 & H1 & H2 & H3 & H4 & ->).
  simpl in H3. inversion H3; subst pm. simpl in HM, HN. split.
  - eapply numpy_type_error; eauto. intros E. rewrite E in HN. discriminate.
  - simpl. rewrite HM. reflexivity.
Qed.
