(** Proofs about MLaue.v. *)
From Verif Require Import Vec MMotion MLaue Spec.
From Verif Require Import PMotion.

(** ** trigonometry *)
Lemma cos_2atan s : cos (2 * atan s) = (1 - s * s) / (1 + s * s).
Proof.
  rewrite cos_2a_cos, cos_atan. unfold Rsqr.
  assert (H : 0 < 1 + s * s) by nra. assert (H1 := sqrt_lt_R0 _ H).
  assert (H2 := sqrt_sqrt (1 + s * s) (Rlt_le _ _ H)).
  replace (2 * (1 / sqrt (1 + s * s)) * (1 / sqrt (1 + s * s)))
    with (2 / (sqrt (1 + s * s) * sqrt (1 + s * s))) by (field; lra).
  rewrite H2. field. lra.
Qed.
Lemma sin_2atan s : sin (2 * atan s) = 2 * s / (1 + s * s).
Proof.
  rewrite sin_2a, sin_atan, cos_atan. unfold Rsqr.
  assert (H : 0 < 1 + s * s) by nra. assert (H1 := sqrt_lt_R0 _ H).
  assert (H2 := sqrt_sqrt (1 + s * s) (Rlt_le _ _ H)).
  replace (2 * (s / sqrt (1 + s * s)) * (1 / sqrt (1 + s * s)))
    with (2 * s / (sqrt (1 + s * s) * sqrt (1 + s * s))) by (field; lra).
  now rewrite H2.
Qed.

(** ** the Laue function *)
Definition rho0 f G := dot (rf0 f) G.
Definition rho1 f G := dot (rf1 f) G.
Definition rho2 f G := dot (rf2 f) G + normsq G / 2.

Lemma laue_function k a th G :
  dot k (mv (rod_matrix a th) G) + normsq G / 2 =
  rho0 (laue_factors k a) G * cos th + rho1 (laue_factors k a) G * sin th + rho2 (laue_factors k a) G.
Proof.
  unfold rho0, rho1, rho2, laue_factors; cbn [rf0 rf1 rf2].
  unfold rod_matrix, rod_K2. rewrite !dot_mv_T, !mT_mT, !mv_madd, !mv_mscale, !mv_mm, !mv_I, !rod_K_cross.
  generalize (cross a G) (cross a (cross a G)). intros u v. vdes; vunf; ring.
Qed.

Lemma laue_condition_iff k a th G : unit a ->
  laue_condition k (mv (rod_matrix a th) G) <->
  rho0 (laue_factors k a) G * cos th + rho1 (laue_factors k a) G * sin th + rho2 (laue_factors k a) G = 0.
Proof.
  intros U. unfold laue_condition. rewrite norm_eq_normsq, normsq_add.
  rewrite (rotation_normsq _ G (rod_rotation a th U)), <- laue_function. split; lra.
Qed.

(** half-angle substitution *)
Lemma half_angle_iff r0 r1 r2 s :
  r0 * cos (2 * atan s) + r1 * sin (2 * atan s) + r2 = 0 <->
  (r2 - r0) * (s * s) + 2 * r1 * s + (r0 + r2) = 0.
Proof.
  rewrite cos_2atan, sin_2atan. assert (H : 0 < 1 + s * s) by nra.
  replace (r0 * ((1 - s * s) / (1 + s * s)) + r1 * (2 * s / (1 + s * s)) + r2)
    with (((r2 - r0) * (s * s) + 2 * r1 * s + (r0 + r2)) / (1 + s * s)) by (field; lra).
  split; intros E.
  - unfold Rdiv in E. apply Rmult_integral in E as [E|E]; auto.
    apply Rinv_neq_0_compat in E; [contradiction|lra].
  - rewrite E. unfold Rdiv. ring.
Qed.

(** Closed form of the candidate times. *)
Definition cand_a f G := rho1 f G / (rho2 f G - rho0 f G).
Definition cand_b f G := (rho2 f G + rho0 f G) / (rho2 f G - rho0 f G).
Definition cand_disc f G := cand_a f G * cand_a f G - cand_b f G.

Lemma candidates_closed f w G : w <> 0 ->
  laue_candidates f w G =
  if Req_EM_T (rho2 f G - rho0 f G) 0 then (NaN, NaN)
  else if Rlt_dec (cand_disc f G) 0 then (NaN, NaN)
  else (Fin (2 * atan (- cand_a f G + sqrt (cand_disc f G)) / w),
        Fin (2 * atan (- cand_a f G - sqrt (cand_disc f G)) / w)).
Proof.
  intros W. unfold laue_candidates. fold (rho0 f G) (rho1 f G). fold (rho2 f G).
  destruct (Req_EM_T (rho2 f G - rho0 f G) 0) as [E|E].
  - simpl. reflexivity.
  - unfold ndiv at 3 4 5 6 7 8 9 10 11 12. cbn [ndiv]. destruct (Req_EM_T (rho2 f G - rho0 f G) 0) as [F|_]; [contradiction|].
    fold (cand_a f G) (cand_b f G).
    cbn [nmul nsub nadd nneg nlt]. unfold Rltb.
    replace (cand_a f G * cand_a f G + - cand_b f G) with (cand_disc f G) by (unfold cand_disc; ring).
    destruct (Rlt_dec (cand_disc f G) 0) as [D|D].
    + reflexivity.
    + cbn [nsqrt]. destruct (Rlt_dec (cand_disc f G) 0) as [D'|_]; [contradiction|].
      cbn [nadd nneg natan nmul ndiv]. destruct (Req_EM_T w 0); [contradiction|]. reflexivity.
Qed.

Lemma quad_root f G s : rho2 f G - rho0 f G <> 0 ->
  ((rho2 f G - rho0 f G) * (s * s) + 2 * rho1 f G * s + (rho0 f G + rho2 f G) = 0 <->
   (s + cand_a f G) * (s + cand_a f G) = cand_disc f G).
Proof.
  intros D. unfold cand_disc, cand_a, cand_b.
  set (d := rho2 f G - rho0 f G) in *. set (r1 := rho1 f G).
  replace ((s + r1 / d) * (s + r1 / d)) with (r1 / d * (r1 / d) + (s * s + 2 * r1 * s / d)) by (field; auto).
  replace (rho0 f G + rho2 f G) with ((rho2 f G + rho0 f G)) by ring.
  set (n := rho2 f G + rho0 f G).
  split; intros E.
  - replace (s * s + 2 * r1 * s / d) with ((d * (s * s) + 2 * r1 * s + n) / d - n / d) by (field; auto).
    rewrite E. unfold Rdiv. ring.
  - assert (E2 : s * s + 2 * r1 * s / d + n / d = 0) by lra.
    replace (d * (s * s) + 2 * r1 * s + n) with (d * (s * s + 2 * r1 * s / d + n / d)) by (field; auto).
    rewrite E2; ring.
Qed.

(** s = tan(w t / 2) is a root of the quadratic iff t is one of the candidates *)
Lemma candidate_sound f w G t : w <> 0 ->
  (fst (laue_candidates f w G) = Fin t \/ snd (laue_candidates f w G) = Fin t) ->
  rho0 f G * cos (w * t) + rho1 f G * sin (w * t) + rho2 f G = 0.
Proof.
  intros W. rewrite candidates_closed by auto.
  destruct (Req_EM_T _ 0) as [E|E]; simpl; [intuition discriminate|].
  destruct (Rlt_dec _ 0) as [D|D]; simpl; [intuition discriminate|].
  assert (HD : sqrt (cand_disc f G) * sqrt (cand_disc f G) = cand_disc f G) by (apply sqrt_sqrt; lra).
  intros [H|H]; injection H as <-;
    match goal with |- context[w * (2 * atan ?s / w)] => replace (w * (2 * atan s / w)) with (2 * atan s) by (field; auto) end;
    apply half_angle_iff, quad_root; auto; (transitivity (sqrt (cand_disc f G) * sqrt (cand_disc f G)); [ring|exact HD]).
Qed.

Lemma candidate_complete f w G t : 0 < w < PI -> 0 <= t <= 1 ->
  rho2 f G - rho0 f G <> 0 ->
  rho0 f G * cos (w * t) + rho1 f G * sin (w * t) + rho2 f G = 0 ->
  fst (laue_candidates f w G) = Fin t \/ snd (laue_candidates f w G) = Fin t.
Proof.
  intros W T D E. rewrite candidates_closed by lra.
  destruct (Req_EM_T _ 0) as [E0|_]; [contradiction|].
  assert (HT : - (PI / 2) < w * t / 2 < PI / 2) by (pose proof PI_RGT_0; split; nra).
  set (s := tan (w * t / 2)).
  assert (Hs : 2 * atan s = w * t) by (unfold s; rewrite atan_tan by auto; field).
  rewrite <- Hs in E. apply half_angle_iff, quad_root in E; auto.
  pose proof (Rle_0_sqr (s + cand_a f G)) as SQ. unfold Rsqr in SQ.
  destruct (Rlt_dec (cand_disc f G) 0) as [N|N]; [lra|]. simpl.
  rewrite <- E. replace ((s + cand_a f G) * (s + cand_a f G)) with (Rsqr (s + cand_a f G)) by reflexivity.
  rewrite sqrt_Rsqr_abs. unfold Rabs; destruct (Rcase_abs _).
  - right. f_equal. replace (- cand_a f G - - (s + cand_a f G)) with s by ring. rewrite Hs. field; lra.
  - left. f_equal. replace (- cand_a f G + (s + cand_a f G)) with s by ring. rewrite Hs. field; lra.
Qed.

(** ** structure of the output *)
Lemma in_unit_spec x t : in_unit_interval x = Some t <-> (x = Fin t /\ 0 <= t <= 1).
Proof.
  unfold in_unit_interval. destruct x as [r| | |]; simpl; try (split; [discriminate|intros [? _]; discriminate]).
  destruct (Rleb 0 r) eqn:E1; destruct (Rleb r 1) eqn:E2; simpl; rewrite ?Rleb_true, ?Rleb_false in *;
    split; intros H; try discriminate; try (inversion H; subst; split; auto; fail);
    destruct H as [H H']; inversion H; subst; try reflexivity; exfalso; lra.
Qed.

Definition cell (G0 : list (list vec)) (g p : nat) : option vec :=
  match nth_error G0 g with Some row => nth_error row p | None => None end.

Lemma in_hits_row sel g row h :
  In h (hits_row sel g row) <->
  h_grain h = g /\ exists G, nth_error row (h_plane h) = Some G /\ in_unit_interval (sel G) = Some (h_time h).
Proof.
  unfold hits_row. rewrite in_concat. split.
  - intros (l & Hl & Hh). apply in_mapi in Hl as (p & G & HG & ->).
    destruct (in_unit_interval (sel G)) eqn:E; [|destruct Hh].
    destruct Hh as [<-|[]]; simpl. split; auto. exists G; auto.
  - intros (Hg & G & HG & Ht). destruct h as [g' p t]; simpl in *; subst.
    exists [Hit g p t]. split; [|left; auto]. apply in_mapi. exists p, G. now rewrite Ht.
Qed.
Lemma in_hits sel G0 h :
  In h (hits sel G0) <->
  exists G, cell G0 (h_grain h) (h_plane h) = Some G /\ in_unit_interval (sel G) = Some (h_time h).
Proof.
  unfold hits, cell. rewrite in_concat. split.
  - intros (l & Hl & Hh). apply in_mapi in Hl as (g & row & Hr & ->).
    apply in_hits_row in Hh as (<- & G & HG & Ht). rewrite Hr. eauto.
  - intros (G & HG & Ht). destruct (nth_error G0 (h_grain h)) as [row|] eqn:Hr; [|discriminate].
    exists (hits_row sel (h_grain h) row). split.
    + apply in_mapi. eauto.
    + apply in_hits_row. eauto.
Qed.

Lemma traverse_ok {A B} (f : A -> result B) l :
  (forall x, In x l -> exists y, f x = Ok y) -> exists ys, traverse f l = Ok ys.
Proof.
  induction l as [|x l IH]; intros H; simpl; eauto.
  destruct (H x (or_introl eq_refl)) as (y & ->). simpl.
  destruct IH as (ys & ->); [intros; apply H; right; auto|]. simpl; eauto.
Qed.
Lemma traverse_spec {A B} (f : A -> result B) l ys :
  traverse f l = Ok ys -> Forall2 (fun x y => f x = Ok y) l ys.
Proof.
  revert ys; induction l as [|x l IH]; simpl; intros ys H.
  - inversion H; constructor.
  - destruct (f x) as [y|] eqn:E; simpl in H; [|discriminate].
    destruct (traverse f l) as [zs|]; simpl in H; [|discriminate]. inversion H; subst. constructor; auto.
Qed.
Lemma gather_ok G0 h : forall e,
  gather_G G0 h = Ok e <->
  (ev_grain e = h_grain h /\ ev_plane e = h_plane h /\ ev_time e = h_time h /\
   cell G0 (h_grain h) (h_plane h) = Some (ev_G e)).
Proof.
  intros e. unfold gather_G, cell. destruct (nth_error G0 (h_grain h)) as [row|]; [|split; [discriminate|intuition discriminate]].
  destruct (nth_error row (h_plane h)) as [G|]; [|split; [discriminate|intuition discriminate]].
  split.
  - intros H; inversion H; subst; simpl; auto.
  - destruct e; simpl. intros (-> & -> & -> & H). inversion H; subst; auto.
Qed.

Lemma find_solutions_total f w G0 : exists evs, find_solutions f w G0 = Ok evs.
Proof.
  unfold find_solutions. apply traverse_ok. intros h H.
  assert (exists G, cell G0 (h_grain h) (h_plane h) = Some G) as (G & HG).
  { apply in_app_or in H as [H|H]; apply in_hits in H as (G & HG & _); eauto. }
  exists (Event (h_grain h) (h_plane h) (h_time h) G). apply gather_ok; simpl; auto.
Qed.

Lemma Forall2_in_r {A B} (P : A -> B -> Prop) l m y : Forall2 P l m -> In y m -> exists x, In x l /\ P x y.
Proof. induction 1; simpl; [tauto|]. intros [<-|H1]; eauto. destruct (IHForall2 H1) as (z & ? & ?); eauto. Qed.
Lemma Forall2_in_l {A B} (P : A -> B -> Prop) l m x : Forall2 P l m -> In x l -> exists y, In y m /\ P x y.
Proof. induction 1; simpl; [tauto|]. intros [<-|H1]; eauto. destruct (IHForall2 H1) as (z & ? & ?); eauto. Qed.

Lemma in_find_solutions f w G0 evs e :
  find_solutions f w G0 = Ok evs ->
  (In e evs <->
   cell G0 (ev_grain e) (ev_plane e) = Some (ev_G e) /\ 0 <= ev_time e <= 1 /\
   (fst (laue_candidates f w (ev_G e)) = Fin (ev_time e) \/ snd (laue_candidates f w (ev_G e)) = Fin (ev_time e))).
Proof.
  unfold find_solutions. intros H. apply traverse_spec in H. split.
  - intros He. destruct (Forall2_in_r _ _ _ _ H He) as (h & Hh & Hg).
    apply gather_ok in Hg as (E1 & E2 & E3 & E4). rewrite E1, E2, E3.
    apply in_app_or in Hh as [Hh|Hh]; apply in_hits in Hh as (G & HG & Ht); rewrite E4 in HG; inversion HG; subst;
      apply in_unit_spec in Ht as (Ht & ?); auto.
  - intros (Hc & Ht & Hf).
    set (h := Hit (ev_grain e) (ev_plane e) (ev_time e)).
    assert (Hh : In h (hits (fun G => fst (laue_candidates f w G)) G0 ++ hits (fun G => snd (laue_candidates f w G)) G0)).
    { apply in_or_app. destruct Hf as [Hf|Hf]; [left|right]; apply in_hits; exists (ev_G e); split; auto;
        apply in_unit_spec; auto. }
    destruct (Forall2_in_l _ _ _ _ H Hh) as (e' & He' & Hg). apply gather_ok in Hg as (E1 & E2 & E3 & E4).
    simpl in *. rewrite Hc in E4. inversion E4. destruct e, e'; simpl in *; subst; auto.
Qed.

(** ** ordering *)
Definition lex_lt (a b : nat * nat) : Prop := (fst a < fst b)%nat \/ (fst a = fst b /\ snd a < snd b)%nat.
Definition hkey (h : hit) := (h_grain h, h_plane h).
Definition ekey (e : event) := (ev_grain e, ev_plane e).
From Coq Require Import Sorted.

Lemma ss_app {A} (R : A -> A -> Prop) l m :
  StronglySorted R l -> StronglySorted R m -> (forall x y, In x l -> In y m -> R x y) -> StronglySorted R (l ++ m).
Proof.
  induction 1 as [|x l Hl IH Hx]; simpl; intros Hm H; auto. constructor.
  - apply IH; [exact Hm|]. intros; apply H; simpl; auto.
  - apply Forall_app; split; auto. apply Forall_forall. intros y Hy. apply H; simpl; auto.
Qed.

Lemma hits_row_sorted_from (sel : vec -> num) g (row : list vec) : forall i,
  let l := concat (mapi_from i (fun p G => match in_unit_interval (sel G) with Some t => [Hit g p t] | None => [] end) row) in
  StronglySorted lex_lt (map hkey l) /\ forall h, In h l -> h_grain h = g /\ (i <= h_plane h)%nat.
Proof.
  induction row as [|G row IH]; intros i; simpl; [split; [constructor|tauto]|].
  destruct (IH (S i)) as (S1 & S2).
  destruct (in_unit_interval (sel G)) as [t|]; simpl.
  - split.
    + constructor; auto. apply Forall_forall. intros k Hk. apply in_map_iff in Hk as (h & <- & Hh).
      apply S2 in Hh as (E1 & E2). right; unfold hkey; simpl; lia.
    + intros h [<-|Hh]; [simpl; lia|]. apply S2 in Hh. lia.
  - split; auto. intros h Hh. apply S2 in Hh; lia.
Qed.
Lemma hits_sorted_from sel G0 : forall i,
  let l := concat (mapi_from i (hits_row sel) G0) in
  StronglySorted lex_lt (map hkey l) /\ forall h, In h l -> (i <= h_grain h)%nat.
Proof.
  induction G0 as [|row G0 IH]; intros i; simpl; [split; [constructor|tauto]|].
  destruct (IH (S i)) as (S1 & S2). destruct (hits_row_sorted_from sel i row 0) as (R1 & R2).
  fold (mapi (fun p G => match in_unit_interval (sel G) with Some t => [Hit i p t] | None => [] end) row) in R1, R2.
  fold (hits_row sel i row) in R1, R2. split.
  - rewrite map_app. apply ss_app; auto. intros x y Hx Hy.
    apply in_map_iff in Hx as (h & <- & Hh). apply in_map_iff in Hy as (h' & <- & Hh').
    apply R2 in Hh. apply S2 in Hh'. left; unfold hkey; simpl; lia.
  - intros h Hh. apply in_app_or in Hh as [Hh|Hh]; [apply R2 in Hh|apply S2 in Hh]; lia.
Qed.

Lemma gather_keys G0 hs es :
  Forall2 (fun h e => gather_G G0 h = Ok e) hs es -> map ekey es = map hkey hs.
Proof.
  induction 1 as [|h e hs es H]; simpl; auto. apply gather_ok in H as (E1 & E2 & _).
  unfold ekey at 1, hkey at 1. rewrite E1, E2. f_equal; auto.
Qed.

Lemma find_solutions_order f w G0 evs : find_solutions f w G0 = Ok evs ->
  exists l1 l2, evs = l1 ++ l2 /\
    StronglySorted lex_lt (map ekey l1) /\ StronglySorted lex_lt (map ekey l2) /\
    (forall e, In e l1 -> fst (laue_candidates f w (ev_G e)) = Fin (ev_time e)) /\
    (forall e, In e l2 -> snd (laue_candidates f w (ev_G e)) = Fin (ev_time e)).
Proof.
  unfold find_solutions. intros H. apply traverse_spec, Forall2_app_inv_l in H as (l1 & l2 & H1 & H2 & ->).
  exists l1, l2. split; auto. rewrite (gather_keys _ _ _ H1), (gather_keys _ _ _ H2).
  split; [apply (hits_sorted_from _ G0 0)|]. split; [apply (hits_sorted_from _ G0 0)|]. split.
  - intros e He. destruct (Forall2_in_r _ _ _ _ H1 He) as (h & Hh & Hg).
    apply gather_ok in Hg as (E1 & E2 & E3 & E4). apply in_hits in Hh as (G & HG & Ht).
    rewrite E4 in HG; inversion HG; subst. apply in_unit_spec in Ht as (Ht & _). now rewrite E3.
  - intros e He. destruct (Forall2_in_r _ _ _ _ H2 He) as (h & Hh & Hg).
    apply gather_ok in Hg as (E1 & E2 & E3 & E4). apply in_hits in Hh as (G & HG & Ht).
    rewrite E4 in HG; inversion HG; subst. apply in_unit_spec in Ht as (Ht & _). now rewrite E3.
Qed.

Definition key_dec (a b : nat * nat) : {a = b} + {a <> b}.
Proof. decide equality; apply Nat.eq_dec. Defined.
Lemma ss_lex_count k l : StronglySorted lex_lt l -> (count_occ key_dec l k <= 1)%nat.
Proof.
  induction 1 as [|x l Hl IH Hx]; simpl; [lia|]. destruct (key_dec x k) as [->|]; auto.
  assert (count_occ key_dec l k = 0%nat); [|lia]. apply count_occ_not_In. intros Hk.
  rewrite Forall_forall in Hx. apply Hx in Hk. destruct Hk; simpl in *; lia.
Qed.

(** * Property lemmas *)

(** C07. Every event reported by the Laue solver for wave vector k and a motion
    with unit axis happens at a time in [0,1] at which the rotated diffraction
    vector satisfies the Laue condition exactly. *)
Lemma pC07_laue_sound : forall k a w T o m G0 evs e,
  make_motion a w T o = Ok m -> unit a ->
  find_solutions (laue_factors k (m_axis m)) (m_angle m) G0 = Ok evs -> In e evs ->
  0 <= ev_time e <= 1 /\
  exists G, motion_rotate m (P1 (ev_G e)) (S0 (ev_time e)) = Ok (P1 G) /\ laue_condition k G.
Proof.
  intros k a w T o m G0 evs e Hm U H He. apply make_motion_ok_iff in Hm as (W & _ & ->). cbn [m_axis m_angle] in *.
  apply (in_find_solutions _ _ _ _ e H) in He as (_ & Ht & Hc). split; auto.
  exists (rot_at (Motion a w T o) (ev_time e) (ev_G e)). split; auto.
  unfold rot_at; cbn [m_axis m_angle]. apply laue_condition_iff; auto.
  apply candidate_sound; auto. lra.
Qed.
(** C07 non-vacuity: the reflection G = (-1,1,0), k = (1,0,0), rotation about z. *)
Lemma xC07_sound : exists m evs e,
  make_motion (V3 0 0 1) (PI/2) vzero vzero = Ok m /\
  find_solutions (laue_factors (V3 1 0 0) (m_axis m)) (m_angle m) [[V3 (-1) 1 0]] = Ok evs /\ In e evs.
Proof.
  set (m := Motion (V3 0 0 1) (PI/2) vzero vzero).
  destruct (find_solutions_total (laue_factors (V3 1 0 0) (m_axis m)) (m_angle m) [[V3 (-1) 1 0]]) as (evs & E).
  exists m, evs, (Event 0 0 0 (V3 (-1) 1 0)). split; [|split; auto].
  - apply make_motion_unit; [apply unit_ez|]. pose proof PI_RGT_0; lra.
  - apply (in_find_solutions _ _ _ _ _ E). cbn [ev_grain ev_plane ev_G ev_time]. split; [reflexivity|]. split; [lra|].
    apply candidate_complete; unfold m; cbn [m_axis m_angle]; [pose proof PI_RGT_0; lra|lra| |].
    + unfold rho0, rho2, laue_factors, rod_K2, rod_K; cbn [rf0 rf2]. vunf. lra.
    + rewrite Rmult_0_r, cos_0, sin_0. unfold rho0, rho1, rho2, laue_factors, rod_K2, rod_K; cbn [rf0 rf1 rf2]. vunf. lra.
Qed.

(** C08. Completeness: if element g's plane p satisfies the Laue condition at
    time t in [0,1], and not also when turned by exactly pi (the half-angle
    substitution's blind spot), then the event (g,p,t) is reported. *)
Lemma pC08_laue_complete : forall k a w T o m G0 evs g p G t Gt,
  make_motion a w T o = Ok m -> unit a ->
  find_solutions (laue_factors k (m_axis m)) (m_angle m) G0 = Ok evs ->
  (match nth_error G0 g with Some row => nth_error row p | None => None end) = Some G ->
  0 <= t <= 1 ->
  motion_rotate m (P1 G) (S0 t) = Ok (P1 Gt) -> laue_condition k Gt ->
  ~ laue_condition k (right_handed_rotation a PI G) ->
  In (Event g p t G) evs.
Proof.
  intros k a w T o m G0 evs g p G t Gt Hm U H HG Ht HR HL HP.
  apply make_motion_ok_iff in Hm as (W & _ & ->). cbn [m_axis m_angle] in *.
  apply (in_find_solutions _ _ _ _ _ H). cbn [ev_grain ev_plane ev_G ev_time].
  split; [exact HG|]. split; auto. rewrite rotate_P1_S0 in HR. apply okP1_inj in HR. subst Gt.
  apply candidate_complete; auto.
  - intros E. apply HP. rewrite <- rod_spec by auto. apply laue_condition_iff; auto.
    rewrite cos_PI, sin_PI. lra.
  - apply laue_condition_iff; auto.
Qed.
(** C08 finding. A reflection that satisfies the Laue condition at t = 1 and is
    nevertheless dropped (it also diffracts at an angle of exactly pi). *)
Lemma pC08_laue_complete_refuted : exists k a w T o m G,
  make_motion a w T o = Ok m /\ unit a /\
  (exists Gt, motion_rotate m (P1 G) (S0 1) = Ok (P1 Gt) /\ laue_condition k Gt) /\
  find_solutions (laue_factors k (m_axis m)) (m_angle m) [[G]] = Ok [].
Proof.
  exists (V3 1 0 0), (V3 0 0 1), (PI/2), vzero, vzero, (Motion (V3 0 0 1) (PI/2) vzero vzero), (V3 1 1 0).
  split; [apply make_motion_unit; [apply unit_ez|pose proof PI_RGT_0; lra]|]. split; [apply unit_ez|]. split.
  - eexists; split; [apply rotate_P1_S0|]. unfold rot_at; cbn [m_axis m_angle].
    apply laue_condition_iff; [apply unit_ez|]. rewrite Rmult_1_r, cos_PI2, sin_PI2.
    unfold rho0, rho1, rho2, laue_factors, rod_K2, rod_K; cbn [rf0 rf1 rf2]. vunf. lra.
  - unfold find_solutions. cbn [m_axis m_angle].
    assert (E : laue_candidates (laue_factors (V3 1 0 0) (V3 0 0 1)) (PI/2) (V3 1 1 0) = (NaN, NaN)).
    { rewrite candidates_closed by (pose proof PI_RGT_0; lra).
      destruct (Req_EM_T _ 0) as [|N]; auto. exfalso; apply N.
      unfold rho0, rho2, laue_factors, rod_K2, rod_K; cbn [rf0 rf2]. vunf. lra. }
    unfold hits, mapi; cbn [mapi_from]. unfold hits_row, mapi; cbn [mapi_from]. rewrite E. reflexivity.
Qed.
(** C08. In particular nothing is ever reported for a reflection that also
    diffracts when turned by exactly pi. *)
Lemma pC08_blind_spot : forall k a w T o m G0 evs e,
  make_motion a w T o = Ok m -> unit a ->
  find_solutions (laue_factors k (m_axis m)) (m_angle m) G0 = Ok evs -> In e evs ->
  ~ laue_condition k (right_handed_rotation a PI (ev_G e)).
Proof.
  intros k a w T o m G0 evs e Hm U H He HP. apply make_motion_ok_iff in Hm as (W & _ & ->). cbn [m_axis m_angle] in *.
  apply (in_find_solutions _ _ _ _ e H) in He as (_ & _ & Hc).
  rewrite <- rod_spec in HP by auto. apply laue_condition_iff in HP; auto. rewrite cos_PI, sin_PI in HP.
  rewrite candidates_closed in Hc by lra.
  destruct (Req_EM_T _ 0) as [|N]; [destruct Hc; discriminate|]. apply N. lra.
Qed.
(** C08 finding. A tangential reflection is reported twice: both roots coincide. *)
Lemma pC08_double_report_refuted : exists k a w T o m G e,
  make_motion a w T o = Ok m /\ unit a /\
  find_solutions (laue_factors k (m_axis m)) (m_angle m) [[G]] = Ok [e; e].
Proof.
  (* k=(0,0,1), axis z, G = (0,0,-2): the back-reflection is invariant; use k in x-z plane instead *)
  exists (V3 1 0 0), (V3 0 0 1), 1, vzero, vzero, (Motion (V3 0 0 1) 1 vzero vzero), (V3 (-2) 0 0),
    (Event 0 0 0 (V3 (-2) 0 0)).
  split; [apply make_motion_unit; [apply unit_ez|pose proof PI2_1; lra]|]. split; [apply unit_ez|].
  unfold find_solutions. cbn [m_axis m_angle].
  assert (E : laue_candidates (laue_factors (V3 1 0 0) (V3 0 0 1)) 1 (V3 (-2) 0 0) = (Fin 0, Fin 0)).
  { rewrite candidates_closed by lra.
    assert (E0 : rho0 (laue_factors (V3 1 0 0) (V3 0 0 1)) (V3 (-2) 0 0) = -2)
      by (unfold rho0, laue_factors, rod_K2, rod_K; cbn [rf0]; vunf; lra).
    assert (E1 : rho1 (laue_factors (V3 1 0 0) (V3 0 0 1)) (V3 (-2) 0 0) = 0)
      by (unfold rho1, laue_factors, rod_K2, rod_K; cbn [rf1]; vunf; lra).
    assert (E2 : rho2 (laue_factors (V3 1 0 0) (V3 0 0 1)) (V3 (-2) 0 0) = 2)
      by (unfold rho2, laue_factors, rod_K2, rod_K; cbn [rf2]; vunf; lra).
    unfold cand_disc, cand_a, cand_b. rewrite E0, E1, E2.
    destruct (Req_EM_T (2 - -2) 0); [lra|].
    replace (0 / (2 - -2) * (0 / (2 - -2)) - (2 + -2) / (2 - -2)) with 0 by field.
    destruct (Rlt_dec 0 0); [lra|]. rewrite sqrt_0.
    replace (- (0 / (2 - -2)) + 0) with 0 by field. replace (- (0 / (2 - -2)) - 0) with 0 by field.
    rewrite atan_0. f_equal; f_equal; field. }
  unfold hits, mapi; cbn [mapi_from]. unfold hits_row, mapi; cbn [mapi_from]. rewrite E. cbn [fst snd].
  assert (I : in_unit_interval (Fin 0) = Some 0) by (apply in_unit_spec; split; auto; lra).
  rewrite I. reflexivity.
Qed.

(** C09. The solver always returns; every reported event has in-range indices and
    carries the G vector of its own grain and plane. *)
Lemma pC09_laue_indices : forall f w G0, exists evs,
  find_solutions f w G0 = Ok evs /\
  forall e, In e evs -> exists row, nth_error G0 (ev_grain e) = Some row /\ nth_error row (ev_plane e) = Some (ev_G e).
Proof.
  intros f w G0. destruct (find_solutions_total f w G0) as (evs & E). exists evs; split; auto.
  intros e He. apply (in_find_solutions _ _ _ _ e E) in He as (Hc & _). unfold cell in Hc.
  destruct (nth_error G0 (ev_grain e)) as [row|]; eauto. discriminate.
Qed.
(** C09. Order: a first block and a second block, each strictly increasing
    lexicographically in (grain, plane). *)
Lemma pC09_laue_order : forall f w G0 evs, find_solutions f w G0 = Ok evs ->
  exists l1 l2, evs = l1 ++ l2 /\
    (forall i j e e', (i < j)%nat ->
       (nth_error l1 i = Some e /\ nth_error l1 j = Some e' \/ nth_error l2 i = Some e /\ nth_error l2 j = Some e') ->
       (ev_grain e < ev_grain e' \/ ev_grain e = ev_grain e' /\ ev_plane e < ev_plane e')%nat).
Proof.
  intros f w G0 evs H. destruct (find_solutions_order _ _ _ _ H) as (l1 & l2 & -> & S1 & S2 & _).
  exists l1, l2. split; auto.
  assert (K : forall l, StronglySorted lex_lt (map ekey l) -> forall i j e e', (i < j)%nat ->
    nth_error l i = Some e -> nth_error l j = Some e' -> lex_lt (ekey e) (ekey e')).
  { clear. induction l as [|x l IH]; simpl; intros HS i j e e' Hij Hi Hj; [destruct i; discriminate|].
    inversion HS as [|? ? HS' HF]; subst. destruct j as [|j]; [lia|]. simpl in Hj. destruct i as [|i]; simpl in Hi.
    - inversion Hi; subst. rewrite Forall_forall in HF. apply HF, in_map, nth_error_In with (n := j); auto.
    - apply (IH HS' i j); auto; lia. }
  intros i j e e' Hij [[A B]|[A B]]; eapply K in B; try exact A; eauto.
Qed.
(** C09. At most two events per (grain, plane). *)
Lemma pC09_at_most_two : forall f w G0 evs g p, find_solutions f w G0 = Ok evs ->
  (length (filter (fun e => Nat.eqb (ev_grain e) g && Nat.eqb (ev_plane e) p) evs) <= 2)%nat.
Proof.
  intros f w G0 evs g p H. destruct (find_solutions_order _ _ _ _ H) as (l1 & l2 & -> & S1 & S2 & _).
  assert (K : forall l, length (filter (fun e => Nat.eqb (ev_grain e) g && Nat.eqb (ev_plane e) p) l)
            = count_occ key_dec (map ekey l) (g, p)).
  { clear. induction l as [|e l IH]; [reflexivity|]. cbn [filter map count_occ].
    destruct (key_dec (ekey e) (g, p)) as [E|E].
    - unfold ekey in E. injection E as E1 E2. rewrite E1, E2, !Nat.eqb_refl. cbn [andb length]. now rewrite IH.
    - destruct (Nat.eqb_spec (ev_grain e) g) as [E1|]; destruct (Nat.eqb_spec (ev_plane e) p) as [E2|]; cbn [andb]; auto.
      exfalso; apply E; unfold ekey; congruence. }
  rewrite K, map_app, count_occ_app.
  pose proof (ss_lex_count (g, p) _ S1). pose proof (ss_lex_count (g, p) _ S2). lia.
Qed.
(** C09 non-vacuity: a table for which the solver reports two events. *)
Lemma xC09_two_events : exists f w G0 evs, find_solutions f w G0 = Ok evs /\ length evs = 2%nat.
Proof.
  destruct pC08_double_report_refuted as (k & a & w & T & o & m & G & e & _ & _ & H). eauto 8.
Qed.
