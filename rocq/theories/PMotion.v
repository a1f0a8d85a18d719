(** Proofs about MMotion.v. *)
From Verif Require Import Vec MMotion Spec.

Lemma make_motion_ok_iff a w T o m :
  make_motion a w T o = Ok m <->
  (0 < w < PI /\ Rabs (norm a - 1) <= axis_tol /\ m = Motion a w T o).
Proof.
  unfold make_motion, assert_, axis_ok.
  destruct (Rltb w PI) eqn:H1; destruct (Rltb 0 w) eqn:H2; simpl;
    rewrite ?Rltb_true, ?Rltb_false in *;
    try (split; [discriminate|intros; lra]).
  destruct (Rleb (Rabs (norm a - 1)) axis_tol) eqn:H3; simpl;
    rewrite ?Rleb_true, ?Rleb_false in *.
  - split; [intros H; inversion H; auto|intros (_ & _ & ->); auto].
  - split; [discriminate|intros; lra].
Qed.

Lemma make_motion_err a w T o e :
  make_motion a w T o = Err e -> e = AssertionError.
Proof.
  unfold make_motion, assert_; destruct (_ && _); simpl; [|congruence].
  destruct (axis_ok a); simpl; congruence.
Qed.

(** ** The Rodrigues matrix *)
Lemma rod_K_cross a x : mv (rod_K a) x = cross a x.
Proof. unfold rod_K; veq. Qed.

Lemma rod_closed a th x :
  mv (rod_matrix a th) x =
  vadd x (vadd (vscale (sin th) (cross a x)) (vscale (1 - cos th) (cross a (cross a x)))).
Proof.
  unfold rod_matrix, rod_K2. rewrite !mv_madd, !mv_mscale, mv_mm, mv_I, !rod_K_cross.
  generalize (cross a x) (cross a (cross a x)); veq.
Qed.

Lemma rod_spec a th x : unit a -> mv (rod_matrix a th) x = right_handed_rotation a th x.
Proof.
  unfold unit; intros H. apply norm_unit in H. rewrite rod_closed.
  unfold right_handed_rotation, across, along.
  replace (cross a (cross a x)) with (vsub (vscale (dot a x) a) (vscale (normsq a) x)) by (clear; veq).
  replace (cross a (vsub x (vscale (dot a x) a))) with (cross a x) by (clear; veq).
  rewrite H. generalize (cross a x) (vscale (dot a x) a). veq.
Qed.

Lemma rod_0 a : rod_matrix a 0 = mI.
Proof. unfold rod_matrix, rod_K2, rod_K. rewrite sin_0, cos_0. veq. Qed.

(** |R x|^2 for an arbitrary (not necessarily unit) axis. *)
Lemma rod_normsq a th x :
  normsq (mv (rod_matrix a th) x) =
  normsq x + (1 - cos th) * (1 - cos th) * (normsq a - 1) * normsq (cross a x).
Proof.
  rewrite rod_closed. pose proof (sin2_cos2 th) as H; unfold Rsqr in H.
  set (s := sin th) in *; set (c := cos th) in *.
  assert (Hs : s * s = 1 - c * c) by lra. clear H.
  replace (normsq (vadd x (vadd (vscale s (cross a x)) (vscale (1 - c) (cross a (cross a x))))))
    with (normsq x + (s * s) * normsq (cross a x)
          + (1 - c) * (1 - c) * normsq a * normsq (cross a x)
          - 2 * (1 - c) * normsq (cross a x)).
  - rewrite Hs. ring.
  - clear. clearbody s c. vdes; vunf; ring.
Qed.

Lemma rod_orth a th : unit a -> mm (mT (rod_matrix a th)) (rod_matrix a th) = mI.
Proof.
  unfold unit; intros H; apply norm_unit in H.
  assert (HN : forall x, normsq (mv (rod_matrix a th) x) = normsq x)
    by (intros; rewrite rod_normsq, H; ring).
  assert (HD : forall x y, dot (mv (rod_matrix a th) x) (mv (rod_matrix a th) y) = dot x y).
  { intros x y. pose proof (HN (vadd x y)) as E. rewrite mv_add, !normsq_add, !HN in E. lra. }
  assert (forall x y, dot x (mv (mm (mT (rod_matrix a th)) (rod_matrix a th)) y) = dot x y).
  { intros x y. rewrite mv_mm, <- dot_mv_T. apply HD. }
  generalize dependent (mm (mT (rod_matrix a th)) (rod_matrix a th)).
  clear. intros M H.
  pose proof (H (V3 1 0 0) (V3 1 0 0)); pose proof (H (V3 1 0 0) (V3 0 1 0)); pose proof (H (V3 1 0 0) (V3 0 0 1)).
  pose proof (H (V3 0 1 0) (V3 1 0 0)); pose proof (H (V3 0 1 0) (V3 0 1 0)); pose proof (H (V3 0 1 0) (V3 0 0 1)).
  pose proof (H (V3 0 0 1) (V3 1 0 0)); pose proof (H (V3 0 0 1) (V3 0 1 0)); pose proof (H (V3 0 0 1) (V3 0 0 1)).
  clear H. destruct M as [[? ? ?] [? ? ?] [? ? ?]]. vunf.
  apply mat_ext; simpl; apply vec_ext; simpl; lra.
Qed.

Lemma rod_T a th : mT (rod_matrix a th) = rod_matrix a (- th).
Proof. unfold rod_matrix, rod_K2, rod_K. rewrite sin_neg, cos_neg. veq. Qed.
Lemma rod_neg_axis a th : rod_matrix (vneg a) th = rod_matrix a (- th).
Proof. unfold rod_matrix, rod_K2, rod_K. rewrite sin_neg, cos_neg. veq. Qed.

Lemma rod_det a th : unit a -> det (rod_matrix a th) = 1.
Proof.
  unfold unit; intros H; apply norm_unit in H.
  pose proof (sin2_cos2 th) as E; unfold Rsqr in E.
  unfold rod_matrix, rod_K2, rod_K. set (s := sin th) in *; set (c := cos th) in *.
  clearbody s c.
  replace (det _) with (1 + normsq a * (s * s + (1 - c) * (1 - c) * normsq a - 2 * (1 - c))).
  - rewrite H. replace (s * s) with (1 - c * c) by lra. ring.
  - clear. vdes; vunf; ring.
Qed.

Lemma rod_rotation a th : unit a -> is_rotation (rod_matrix a th).
Proof.
  intros H; repeat split; auto using rod_orth, rod_det.
  pose proof (rod_orth a (- th) H) as E. rewrite rod_T, Ropp_involutive in E.
  rewrite rod_T. exact E.
Qed.

Lemma rod_add a s t : unit a -> mm (rod_matrix a s) (rod_matrix a t) = rod_matrix a (s + t).
Proof.
  unfold unit; intros H; apply norm_unit in H.
  assert (E : forall x, mv (mm (rod_matrix a s) (rod_matrix a t)) x = mv (rod_matrix a (s + t)) x).
  { intros x. rewrite mv_mm, !rod_closed, sin_plus, cos_plus.
    assert (C3 : forall y, cross a (cross a (cross a y)) = vscale (-1) (cross a y)).
    { intros y. replace (cross a (cross a (cross a y))) with (vscale (- normsq a) (cross a y)) by (clear; veq).
      now rewrite H. }
    assert (CA : forall y z, cross a (vadd y z) = vadd (cross a y) (cross a z)) by (clear; veq).
    assert (CS : forall k y, cross a (vscale k y) = vscale k (cross a y)) by (clear; veq).
    repeat (rewrite CA || rewrite CS || rewrite C3).
    generalize (cross a x) (cross a (cross a x)); intros y z.
    clear. vdes. apply vec_ext; vunf; ring. }
  clear H. generalize dependent (mm (rod_matrix a s) (rod_matrix a t)); generalize (rod_matrix a (s + t)).
  clear. intros A B H. pose proof (H (V3 1 0 0)) as H1; pose proof (H (V3 0 1 0)) as H2; pose proof (H (V3 0 0 1)) as H3.
  clear H. vdes. vunf. injection H1; injection H2; injection H3; intros.
  apply mat_ext; simpl; apply vec_ext; simpl; lra.
Qed.

Lemma rod_axis a th : unit a -> mv (rod_matrix a th) a = a.
Proof. intros _. rewrite rod_closed. veq. Qed.

(** ** Rigidity *)
Lemma move_at_sub m t x y :
  vsub (move_at m t x) (move_at m t y) = rot_at m t (vsub x y).
Proof. unfold move_at, rot_at. rewrite !mv_sub. generalize (mv (rod_matrix (m_axis m) (m_angle m * t))). veq. Qed.

Lemma move_at_rigid m t : unit (m_axis m) -> proper_rigid (move_at m t).
Proof.
  intros H; split.
  - intros x y. unfold dist. rewrite move_at_sub. unfold rot_at. apply rotation_norm, rod_rotation, H.
  - intros a b c d. unfold signed_vol6. rewrite !move_at_sub. unfold rot_at.
    rewrite triple_mv, rod_det by auto. ring.
Qed.
Lemma move_at_0 m x : move_at m 0 x = x.
Proof. unfold move_at, rot_at. rewrite Rmult_0_r, rod_0, mv_I. veq. Qed.

Lemma call_P1_S0 m v t : motion_call m (P1 v) (S0 t) = Ok (P1 (move_at m t v)).
Proof. reflexivity. Qed.
Lemma rotate_P1_S0 m v t : motion_rotate m (P1 v) (S0 t) = Ok (P1 (rot_at m t v)).
Proof. reflexivity. Qed.

(** ** Batching *)
Lemma zip_with_length {A B C} (f : A -> B -> C) l m :
  length l = length m -> length (zip_with f l m) = length l.
Proof. revert m; induction l; destruct m; simpl; intros; auto; discriminate. Qed.
Lemma zip_with_map_l {A A' B C} (f : A' -> B -> C) (g : A -> A') l m :
  zip_with f (map g l) m = zip_with (fun x y => f (g x) y) l m.
Proof. revert m; induction l; destruct m; simpl; intros; f_equal; auto. Qed.
Lemma zip_with_map_r {A B B' C} (f : A -> B' -> C) (g : B -> B') l m :
  zip_with f l (map g m) = zip_with (fun x y => f x (g y)) l m.
Proof. revert m; induction l; destruct m; simpl; intros; f_equal; auto. Qed.
Lemma map_zip_with {A B C D} (f : A -> B -> C) (g : C -> D) l m :
  map g (zip_with f l m) = zip_with (fun x y => g (f x y)) l m.
Proof. revert m; induction l; destruct m; simpl; intros; f_equal; auto. Qed.
Lemma zip_zip {A B C D} (f : A -> B -> C) (g : A -> C -> D) l m :
  zip_with g l (zip_with f l m) = zip_with (fun x y => g x (f x y)) l m.
Proof. revert m; induction l; destruct m; simpl; intros; f_equal; auto. Qed.
Lemma zip_with_ext {A B C} (f g : A -> B -> C) l m :
  (forall x y, f x y = g x y) -> zip_with f l m = zip_with g l m.
Proof. intros H; revert m; induction l; destruct m; simpl; intros; f_equal; auto. Qed.
Lemma zip_with_nth_error {A B C} (f : A -> B -> C) l m i :
  nth_error (zip_with f l m) i =
  match nth_error l i, nth_error m i with Some x, Some y => Some (f x y) | _, _ => None end.
Proof. revert m i; induction l; destruct m, i; simpl; auto. destruct (nth_error l i); auto. Qed.

Lemma rows_squeeze2 l : rows_of (squeeze2 l) = l.
Proof. destruct l as [|v [|w l]]; reflexivity. Qed.

Lemma call_P2_S0 m l t :
  motion_call m (P2 l) (S0 t) = Ok (P2 (map (move_at m t) l)).
Proof.
  unfold motion_call, rotator_call, rotator_rows; simpl.
  rewrite rows_squeeze2, !map_map. reflexivity.
Qed.
Lemma call_P2_S1 m l ts :
  length ts = length l ->
  motion_call m (P2 l) (S1 ts) = Ok (P2 (zip_with (move_at m) ts l)).
Proof.
  intros H. unfold motion_call, rotator_call, rotator_rows, scale_times.
  rewrite !map_length, H, Nat.eqb_refl. cbn [bind rows_of].
  rewrite map_zip_with, zip_with_map_l, zip_with_map_r, zip_zip. reflexivity.
Qed.
Lemma call_P2_S1_err m l ts :
  length ts <> length l -> motion_call m (P2 l) (S1 ts) = Err RuntimeError.
Proof.
  intros H. unfold motion_call, rotator_call, rotator_rows; simpl.
  rewrite !map_length. now apply Nat.eqb_neq in H as ->.
Qed.
Lemma call_P1_S1 m v ts :
  motion_call m (P1 v) (S1 ts) =
  match ts with [t] => Ok (P1 (move_at m t v)) | _ => Err RuntimeError end.
Proof. destruct ts as [|t [|u ts]]; reflexivity. Qed.

Definition rectangular (M : nat) (ll : list (list vec)) : Prop := forall l, In l ll -> length l = M.

Lemma concat_length_rect M ll : rectangular M ll -> length (concat ll) = (length ll * M)%nat.
Proof.
  induction ll; intros H; simpl; auto. rewrite app_length, IHll.
  - rewrite (H a); simpl; auto.
  - intros l Hl; apply H; right; auto.
Qed.
Lemma tile_length M ts : length (tile_times M ts) = (length ts * M)%nat.
Proof. unfold tile_times. induction ts; simpl; auto. now rewrite app_length, repeat_length, IHts. Qed.
Lemma zip_with_app {A B C} (f : A -> B -> C) l l' m m' :
  length l = length m -> zip_with f (l ++ l') (m ++ m') = zip_with f l m ++ zip_with f l' m'.
Proof. revert m; induction l; destruct m; simpl; intros; try discriminate; f_equal; auto. Qed.
Lemma zip_repeat {A B C} (f : A -> B -> C) x l : zip_with f (repeat x (length l)) l = map (f x) l.
Proof. induction l; simpl; f_equal; auto. Qed.
Lemma zip_repeat_len {A B C} (f : A -> B -> C) x l M : length l = M -> zip_with f (repeat x M) l = map (f x) l.
Proof. intros <-. apply zip_repeat. Qed.
Lemma firstn_app_len {A} (l m : list A) n : length l = n -> firstn n (l ++ m) = l.
Proof. intros <-. rewrite firstn_app, firstn_all, Nat.sub_diag. simpl. apply app_nil_r. Qed.
Lemma skipn_app_len {A} (l m : list A) n : length l = n -> skipn n (l ++ m) = m.
Proof. intros <-. rewrite skipn_app, skipn_all, Nat.sub_diag. reflexivity. Qed.
Lemma chunk_zip_tile (f : R -> vec -> vec) M ts ll :
  rectangular M ll -> length ts = length ll ->
  chunk (length ll) M (zip_with f (tile_times M ts) (concat ll)) = zip_with (fun t l => map (f t) l) ts ll.
Proof.
  revert ts; induction ll as [|l ll IH]; intros [|t ts] H E; simpl in *; try discriminate; auto.
  unfold tile_times; simpl. fold (tile_times M ts).
  assert (Hl : length l = M) by (apply H; left; reflexivity).
  rewrite zip_with_app by (rewrite repeat_length; symmetry; exact Hl).
  rewrite (zip_repeat_len f t l M Hl).
  assert (Hm : length (map (f t) l) = M) by (rewrite map_length; exact Hl).
  rewrite (firstn_app_len _ _ _ Hm), (skipn_app_len _ _ _ Hm). f_equal.
  apply IH; [|lia]. intros x Hx; apply H; right; exact Hx.
Qed.

Lemma call_P3_S1 m M ll ts :
  rectangular M ll -> length ts = length ll ->
  motion_call m (P3 M ll) (S1 ts) = Ok (P3 M (zip_with (fun t l => map (move_at m t) l) ts ll)).
Proof.
  intros H E. unfold motion_call, rotator_call, rotator_rows, scale_times.
  rewrite !map_length, tile_length, concat_length_rect with (M := M), E, Nat.eqb_refl by auto.
  cbn [bind rows_of]. rewrite Nat.eqb_refl. f_equal. f_equal.
  rewrite (zip_with_map_l _ (Rmult (m_angle m))), (zip_with_map_r _ (fun v => vsub v (m_origin m))).
  rewrite (chunk_zip_tile (fun x y => mv (rod_matrix (m_axis m) (m_angle m * x)) (vsub y (m_origin m))) M ts ll) by auto.
  rewrite map_zip_with, zip_zip. apply zip_with_ext. intros t l. rewrite !map_map. reflexivity.
Qed.
Lemma call_P3_S1_err m M ll ts :
  rectangular M ll -> (0 < M)%nat -> length ts <> length ll ->
  motion_call m (P3 M ll) (S1 ts) = Err RuntimeError.
Proof.
  intros H HM E. unfold motion_call, rotator_call, rotator_rows, scale_times.
  rewrite !map_length, tile_length, concat_length_rect with (M := M) by auto.
  destruct (Nat.eqb_spec (length ts * M) (length ll * M)) as [E'|]; [|reflexivity].
  exfalso; apply E. eapply Nat.mul_cancel_r; [|exact E']. lia.
Qed.
Lemma call_P3_S0 m M ll t :
  motion_call m (P3 M ll) (S0 t) = Err RuntimeError \/ motion_call m (P3 M ll) (S0 t) = Err IndexError.
Proof. unfold motion_call. destruct (Nat.eqb _ _); auto. Qed.

(** ** inverse *)
Lemma norm_vneg a : norm (vneg a) = norm a.
Proof. apply norm_eq_normsq. vdes; vunf; ring. Qed.
Lemma inverse_ok a w T o m :
  make_motion a w T o = Ok m -> motion_inverse m = Ok (Motion (vneg a) w (vneg T) o).
Proof.
  intros H; apply make_motion_ok_iff in H as (H1 & H2 & ->). unfold motion_inverse; simpl.
  apply make_motion_ok_iff. rewrite norm_vneg. auto.
Qed.
Lemma inverse_move m t x : unit (m_axis m) ->
  move_at (Motion (vneg (m_axis m)) (m_angle m) (vneg (m_trans m)) (m_origin m)) t (move_at m t x) =
  vadd x (vsub (mv (mT (rod_matrix (m_axis m) (m_angle m * t))) (vscale t (m_trans m))) (vscale t (m_trans m))).
Proof.
  intros H. unfold move_at, rot_at; simpl. rewrite rod_neg_axis, <- rod_T.
  set (Q := rod_matrix (m_axis m) (m_angle m * t)).
  assert (HQ : mm (mT Q) Q = mI) by apply (rod_rotation _ _ H).
  replace (vsub (vadd (vadd (mv Q (vsub x (m_origin m))) (m_origin m)) (vscale t (m_trans m))) (m_origin m))
    with (vadd (mv Q (vsub x (m_origin m))) (vscale t (m_trans m))) by (generalize (mv Q (vsub x (m_origin m))); veq).
  rewrite mv_add, <- mv_mm, HQ, mv_I. generalize (mv (mT Q) (vscale t (m_trans m))). veq.
Qed.
Lemma inverse_undoes_iff m t : unit (m_axis m) ->
  let mi := Motion (vneg (m_axis m)) (m_angle m) (vneg (m_trans m)) (m_origin m) in
  ((forall x, move_at mi t (move_at m t x) = x) <-> rot_at m t (vscale t (m_trans m)) = vscale t (m_trans m)).
Proof.
  intros H mi. unfold mi. unfold rot_at.
  set (Q := rod_matrix (m_axis m) (m_angle m * t)). set (T := vscale t (m_trans m)).
  assert (HQ : is_rotation Q) by apply (rod_rotation _ _ H).
  split.
  - intros E. specialize (E vzero). rewrite inverse_move in E by auto. fold Q T in E.
    assert (E2 : mv (mT Q) T = T).
    { generalize dependent (mv (mT Q) T). intros w E. clear - E. destruct T, w.
      unfold vadd, vsub, vzero in E; simpl in E. injection E; intros. apply vec_ext; simpl; lra. }
    rewrite <- E2 at 1. rewrite <- mv_mm. destruct HQ as (_ & -> & _). apply mv_I.
  - intros E x. rewrite inverse_move by auto. fold Q T.
    rewrite <- E at 1. rewrite <- mv_mm. destruct HQ as (-> & _ & _). rewrite mv_I. veq.
Qed.

Lemma okP1_inj x y : Ok (P1 x) = Ok (P1 y) -> x = y.
Proof. congruence. Qed.

(** * Property lemmas (restated in Properties_Motion.v) *)

(** C01. Every constructed motion with unit axis acts, at every time, as a proper
    rigid map of space; at time 0 it is the identity. *)
Lemma pC01_motion_is_rigid : forall a w T o m t,
  make_motion a w T o = Ok m -> unit a ->
  exists f : vec -> vec,
    (forall x, motion_call m (P1 x) (S0 t) = Ok (P1 (f x))) /\
    proper_rigid f /\
    (t = 0 -> forall x, f x = x).
Proof.
  intros a w T o m t H U. apply make_motion_ok_iff in H as (_ & _ & ->).
  exists (move_at (Motion a w T o) t). repeat split.
  - apply (move_at_rigid (Motion a w T o) t U).
  - apply (move_at_rigid (Motion a w T o) t U).
  - intros ->. apply move_at_0.
Qed.

(** C01 (vectors). rotate() preserves lengths and angles of diffraction vectors. *)
Lemma pC01_rotate_isometry : forall a w T o m t x y,
  make_motion a w T o = Ok m -> unit a ->
  exists x' y', motion_rotate m (P1 x) (S0 t) = Ok (P1 x') /\
                motion_rotate m (P1 y) (S0 t) = Ok (P1 y') /\
                dot x' y' = dot x y /\ norm x' = norm x.
Proof.
  intros a w T o m t x y H U. apply make_motion_ok_iff in H as (_ & _ & ->).
  exists (rot_at (Motion a w T o) t x), (rot_at (Motion a w T o) t y). repeat split.
  - apply rotation_dot, rod_rotation, U.
  - apply rotation_norm, rod_rotation, U.
Qed.

Lemma unit_ez : unit (V3 0 0 1).
Proof. apply norm_unit. vunf; ring. Qed.
Lemma axis_ok_unit a : unit a -> Rabs (norm a - 1) <= axis_tol.
Proof.
  intros ->. unfold axis_tol. replace (1 - 1) with 0 by ring. rewrite Rabs_R0, Rabs_R1.
  assert (0 < / 10 ^ 8) by (apply Rinv_0_lt_compat; lra).
  assert (0 < / 10 ^ 5) by (apply Rinv_0_lt_compat; lra). lra.
Qed.
Lemma make_motion_unit a w T o : unit a -> 0 < w < PI -> make_motion a w T o = Ok (Motion a w T o).
Proof. intros U W. apply make_motion_ok_iff. auto using axis_ok_unit. Qed.

Lemma xC01_motion : exists m, make_motion (V3 0 0 1) (PI/2) (V3 1 2 3) (V3 4 5 6) = Ok m /\ unit (V3 0 0 1).
Proof.
  eexists; split; [|apply unit_ez]. apply make_motion_unit; [apply unit_ez|].
  pose proof PI_RGT_0; lra.
Qed.

(** C02. The motion is the right-handed rotation by t*angle about the axis
    through the origin point, followed by the translation t*translation. *)
Lemma pC02_motion_semantics : forall a w T o m t x,
  make_motion a w T o = Ok m -> unit a ->
  motion_call m (P1 x) (S0 t) =
  Ok (P1 (vadd (vadd o (right_handed_rotation a (w * t) (vsub x o))) (vscale t T))).
Proof.
  intros a w T o m t x H U. apply make_motion_ok_iff in H as (_ & _ & ->).
  rewrite call_P1_S0. unfold move_at, rot_at; simpl. rewrite rod_spec by auto.
  do 3 f_equal. apply vadd_comm.
Qed.

(** C02. The origin point only translates; so does every point of the axis. *)
Lemma pC02_axis_points_translate : forall a w T o m t s,
  make_motion a w T o = Ok m -> unit a ->
  motion_call m (P1 (vadd o (vscale s a))) (S0 t) = Ok (P1 (vadd (vadd o (vscale s a)) (vscale t T))).
Proof.
  intros a w T o m t s H U. apply make_motion_ok_iff in H as (_ & _ & ->).
  rewrite call_P1_S0. unfold move_at, rot_at; simpl.
  replace (vsub (vadd o (vscale s a)) o) with (vscale s a) by (clear; veq).
  rewrite mv_scale, rod_axis by auto. do 3 f_equal. apply vadd_comm.
Qed.

(** C02. rotate() is right-handed rotation by w*t and is additive in time. *)
Lemma pC02_rotate_semantics : forall a w T o m t x,
  make_motion a w T o = Ok m -> unit a ->
  motion_rotate m (P1 x) (S0 t) = Ok (P1 (right_handed_rotation a (w * t) x)).
Proof.
  intros a w T o m t x H U. apply make_motion_ok_iff in H as (_ & _ & ->).
  rewrite rotate_P1_S0. unfold rot_at; simpl. now rewrite rod_spec.
Qed.
Lemma pC02_rotate_additive : forall a w T o m s t x y z,
  make_motion a w T o = Ok m -> unit a ->
  motion_rotate m (P1 x) (S0 t) = Ok (P1 y) ->
  motion_rotate m (P1 y) (S0 s) = Ok (P1 z) ->
  motion_rotate m (P1 x) (S0 (s + t)) = Ok (P1 z).
Proof.
  intros a w T o m s t x y z H U. apply make_motion_ok_iff in H as (_ & _ & ->).
  rewrite !rotate_P1_S0. unfold rot_at; simpl. intros E1 E2.
  inversion E1; subst. inversion E2; subst. rewrite <- mv_mm, rod_add by auto.
  do 3 f_equal. f_equal. ring.
Qed.
(** C02. Concrete sense check: about +z by pi/2, +x goes to +y. *)
Lemma xC02_sense : forall T o m,
  make_motion (V3 0 0 1) (PI/2) T o = Ok m -> motion_rotate m (P1 (V3 1 0 0)) (S0 1) = Ok (P1 (V3 0 1 0)).
Proof.
  intros T o m H. apply make_motion_ok_iff in H as (_ & _ & ->). rewrite rotate_P1_S0.
  unfold rot_at; simpl. rewrite Rmult_1_r, rod_closed, sin_PI2, cos_PI2.
  do 2 f_equal. apply vec_ext; vunf; ring.
Qed.

(** C03. inverse() of a constructed motion always constructs. *)
Lemma pC03_inverse_constructs : forall a w T o m,
  make_motion a w T o = Ok m -> exists mi, motion_inverse m = Ok mi /\ motion_inverse mi = Ok m.
Proof.
  intros a w T o m H. pose proof H as H0. apply inverse_ok in H. eexists; split; [exact H|].
  apply make_motion_ok_iff in H0 as (H1 & H2 & ->).
  unfold motion_inverse; simpl. apply make_motion_ok_iff. repeat split; try lra.
  - now rewrite !norm_vneg.
  - f_equal; destruct a, T; unfold vneg; simpl; now rewrite !Ropp_involutive.
Qed.
(** C03. rotate() of the inverse undoes rotate() at every time. *)
Lemma pC03_inverse_rotate_undoes : forall a w T o m mi t x y,
  make_motion a w T o = Ok m -> unit a -> motion_inverse m = Ok mi ->
  motion_rotate m (P1 x) (S0 t) = Ok (P1 y) -> motion_rotate mi (P1 y) (S0 t) = Ok (P1 x).
Proof.
  intros a w T o m mi t x y H U Hi. pose proof (inverse_ok _ _ _ _ _ H) as Hi'. rewrite Hi in Hi'.
  inversion Hi'; subst mi. apply make_motion_ok_iff in H as (_ & _ & ->).
  rewrite !rotate_P1_S0. unfold rot_at; simpl. intros E; inversion E; subst.
  rewrite <- mv_mm, rod_neg_axis, rod_add by auto.
  replace (- (w * t) + w * t) with 0 by ring. now rewrite rod_0, mv_I.
Qed.
(** C03. The inverse motion undoes the motion at time t exactly when the rotation
    at time t fixes t*translation. *)
Lemma pC03_inverse_undoes_iff : forall a w T o m mi t,
  make_motion a w T o = Ok m -> unit a -> motion_inverse m = Ok mi ->
  ((forall x y, motion_call m (P1 x) (S0 t) = Ok (P1 y) -> motion_call mi (P1 y) (S0 t) = Ok (P1 x))
   <-> right_handed_rotation a (w * t) (vscale t T) = vscale t T).
Proof.
  intros a w T o m mi t H U Hi. pose proof (inverse_ok _ _ _ _ _ H) as Hi'. rewrite Hi in Hi'.
  inversion Hi'; subst mi. apply make_motion_ok_iff in H as (_ & _ & ->).
  rewrite <- rod_spec by auto.
  pose proof (inverse_undoes_iff (Motion a w T o) t U) as E. unfold rot_at in E. cbn in E. rewrite <- E.
  split.
  - intros F x. specialize (F x _ eq_refl). rewrite call_P1_S0 in F. injection F. auto.
  - intros F x y Hy. rewrite call_P1_S0 in *. inversion Hy; subst. now rewrite F.
Qed.
(** C03. In every case the round trip is off by a constant vector that does not
    depend on the point. *)
Lemma pC03_inverse_residual : forall a w T o m mi t,
  make_motion a w T o = Ok m -> unit a -> motion_inverse m = Ok mi ->
  forall x y, motion_call m (P1 x) (S0 t) = Ok (P1 y) ->
  motion_call mi (P1 y) (S0 t) =
  Ok (P1 (vadd x (vsub (right_handed_rotation a (- (w * t)) (vscale t T)) (vscale t T)))).
Proof.
  intros a w T o m mi t H U Hi x y Hy. pose proof (inverse_ok _ _ _ _ _ H) as Hi'. rewrite Hi in Hi'.
  inversion Hi'; subst mi. apply make_motion_ok_iff in H as (_ & _ & ->).
  rewrite call_P1_S0 in *. inversion Hy; subst. clear Hy.
  do 2 f_equal. pose proof (inverse_move (Motion a w T o) t x U) as E. simpl in E. rewrite E.
  now rewrite rod_T, rod_spec.
Qed.
(** C03 finding. A motion whose documented inverse does not undo it. *)
Lemma pC03_inverse_refuted : exists a w T o m mi x y,
  make_motion a w T o = Ok m /\ unit a /\ motion_inverse m = Ok mi /\
  motion_call m (P1 x) (S0 1) = Ok (P1 y) /\ motion_call mi (P1 y) (S0 1) <> Ok (P1 x).
Proof.
  exists (V3 0 0 1), (PI/2), (V3 1 0 0), vzero, (Motion (V3 0 0 1) (PI/2) (V3 1 0 0) vzero).
  assert (H : make_motion (V3 0 0 1) (PI/2) (V3 1 0 0) vzero = Ok (Motion (V3 0 0 1) (PI/2) (V3 1 0 0) vzero)).
  { apply make_motion_unit; [apply unit_ez|]. pose proof PI_RGT_0; lra. }
  eexists; exists vzero; eexists. split; [exact H|]. split; [apply unit_ez|].
  split; [apply (inverse_ok _ _ _ _ _ H)|]. split; [apply call_P1_S0|].
  rewrite call_P1_S0. intros E. apply okP1_inj in E.
  pose proof (inverse_move (Motion (V3 0 0 1) (PI/2) (V3 1 0 0) vzero) 1 vzero unit_ez) as F.
  cbn [m_axis m_angle m_trans m_origin] in F. rewrite E in F. clear E.
  rewrite rod_T, rod_closed in F. rewrite Rmult_1_r, sin_neg, cos_neg, sin_PI2, cos_PI2 in F.
  apply (f_equal vx) in F. vunf. lra.
Qed.

(** C04. Construction succeeds exactly under the two guards, and otherwise
    raises AssertionError. *)
Lemma pC04_constructor_guard : forall a w T o,
  (0 < w < PI /\ Rabs (norm a - 1) <= / 10^8 + / 10^5 ->
     make_motion a w T o = Ok (Motion a w T o)) /\
  (~ (0 < w < PI /\ Rabs (norm a - 1) <= / 10^8 + / 10^5) ->
     make_motion a w T o = Err AssertionError).
Proof.
  intros a w T o. assert (E : axis_tol = / 10^8 + / 10^5) by (unfold axis_tol; rewrite Rabs_R1; ring).
  rewrite <- E. split; intros H.
  - apply make_motion_ok_iff. tauto.
  - destruct (make_motion a w T o) as [m|e] eqn:F.
    + apply make_motion_ok_iff in F. exfalso; apply H; tauto.
    + f_equal. eapply make_motion_err; eauto.
Qed.
(** C04. Exact length defect for an arbitrary accepted axis. *)
Lemma pC04_length_defect : forall a w T o m t x y,
  make_motion a w T o = Ok m -> motion_rotate m (P1 x) (S0 t) = Ok (P1 y) ->
  normsq y = normsq x + (1 - cos (w * t))^2 * (normsq a - 1) * normsq (cross a x).
Proof.
  intros a w T o m t x y H. apply make_motion_ok_iff in H as (_ & _ & ->).
  rewrite rotate_P1_S0. intros E; inversion E; subst. unfold rot_at; simpl. rewrite rod_normsq. ring.
Qed.
(** C04 finding. An accepted motion that is not an isometry. *)
Lemma pC04_accepted_not_rigid_refuted : exists a w T o m x y x' y',
  make_motion a w T o = Ok m /\
  motion_call m (P1 x) (S0 1) = Ok (P1 x') /\ motion_call m (P1 y) (S0 1) = Ok (P1 y') /\
  dist x' y' <> dist x y.
Proof.
  set (a := V3 (1 + / 10^6) 0 0).
  assert (Hn : norm a = 1 + / 10^6).
  { unfold norm. replace (normsq a) with ((1 + / 10^6) * (1 + / 10^6)) by (unfold a; vunf; ring).
    apply sqrt_square. pose proof (Rinv_0_lt_compat (10^6)); lra. }
  assert (H : make_motion a (PI/2) vzero vzero = Ok (Motion a (PI/2) vzero vzero)).
  { apply make_motion_ok_iff. split; [pose proof PI_RGT_0; lra|]. split; auto.
    rewrite Hn. replace (1 + / 10^6 - 1) with (/ 10^6) by ring.
    unfold axis_tol. rewrite Rabs_R1, Rabs_right; lra. }
  exists a, (PI/2), vzero, vzero, (Motion a (PI/2) vzero vzero), (V3 0 1 0), vzero.
  eexists; eexists. split; [exact H|]. rewrite !call_P1_S0. split; [reflexivity|]. split; [reflexivity|].
  unfold dist. rewrite move_at_sub. unfold rot_at; simpl. intros E. apply norm_eq_normsq in E.
  rewrite rod_normsq, Rmult_1_r, cos_PI2 in E. unfold a in E. vunf. lra.
Qed.

(** C05. (N,3) with one scalar time: element-wise the single-point call. *)
Lemma pC05_batch_scalar_time : forall m l t, exists out,
  motion_call m (P2 l) (S0 t) = Ok (P2 out) /\ length out = length l /\
  forall i x, nth_error l i = Some x ->
    exists y, motion_call m (P1 x) (S0 t) = Ok (P1 y) /\ nth_error out i = Some y.
Proof.
  intros m l t. exists (map (move_at m t) l). rewrite call_P2_S0, map_length. repeat split; auto.
  intros i x Hx. exists (move_at m t x). split; auto. now apply map_nth_error.
Qed.
(** C05. (N,3) with N times: element-wise, same order; any other count raises. *)
Lemma pC05_batch_vector_time : forall m l ts,
  (length ts = length l -> exists out,
     motion_call m (P2 l) (S1 ts) = Ok (P2 out) /\ length out = length l /\
     forall i x t, nth_error l i = Some x -> nth_error ts i = Some t ->
       exists y, motion_call m (P1 x) (S0 t) = Ok (P1 y) /\ nth_error out i = Some y) /\
  (length ts <> length l -> motion_call m (P2 l) (S1 ts) = Err RuntimeError).
Proof.
  intros m l ts; split; [|apply call_P2_S1_err]. intros H. exists (zip_with (move_at m) ts l).
  rewrite call_P2_S1, zip_with_length by auto. repeat split; auto.
  intros i x t Hx Ht. exists (move_at m t x). split; auto. now rewrite zip_with_nth_error, Hx, Ht.
Qed.
(** C05. (N,M,3) with N times: vertex j of element i is moved at time i. *)
Lemma pC05_batch_elements : forall m M ll ts,
  (forall l, In l ll -> length l = M) ->
  (length ts = length ll -> exists out,
     motion_call m (P3 M ll) (S1 ts) = Ok (P3 M out) /\ length out = length ll /\
     forall i row t, nth_error ll i = Some row -> nth_error ts i = Some t ->
       exists row', nth_error out i = Some row' /\ length row' = M /\
       forall j x, nth_error row j = Some x ->
         exists y, motion_call m (P1 x) (S0 t) = Ok (P1 y) /\ nth_error row' j = Some y) /\
  ((0 < M)%nat -> length ts <> length ll -> motion_call m (P3 M ll) (S1 ts) = Err RuntimeError).
Proof.
  intros m M ll ts HR; split; [|intros; now apply call_P3_S1_err]. intros H.
  exists (zip_with (fun t l => map (move_at m t) l) ts ll).
  rewrite call_P3_S1, zip_with_length by auto. repeat split; auto.
  intros i row t Hr Ht. exists (map (move_at m t) row). rewrite zip_with_nth_error, Hr, Ht, map_length.
  repeat split.
  - apply HR. eapply nth_error_In; eauto.
  - intros j x Hx. exists (move_at m t x). split; auto. now apply map_nth_error.
Qed.
(** C05. Scalar time with (N,M,3) always raises, whatever N and M. *)
Lemma pC05_elements_scalar_time_raises : forall m M ll t,
  exists e, motion_call m (P3 M ll) (S0 t) = Err e.
Proof. intros m M ll t. destruct (call_P3_S0 m M ll t) as [->| ->]; eauto. Qed.
(** C05. Single point with an array of times: one time only. *)
Lemma pC05_single_point_times : forall m v ts,
  (forall t, ts = [t] -> motion_call m (P1 v) (S1 ts) = motion_call m (P1 v) (S0 t)) /\
  (length ts <> 1%nat -> motion_call m (P1 v) (S1 ts) = Err RuntimeError).
Proof.
  intros m v ts; rewrite call_P1_S1; split.
  - intros t ->. reflexivity.
  - destruct ts as [|t [|u ts]]; simpl; intros; auto; lia.
Qed.
(** C05. rotate() on (N,3): element-wise for every N other than 1; for N = 1 and
    scalar time the row dimension is dropped. *)
Lemma pC05_rotate_batch : forall m l ts t,
  (length ts = length l -> exists out, motion_rotate m (P2 l) (S1 ts) = Ok (P2 out) /\ length out = length l /\
     forall i x t, nth_error l i = Some x -> nth_error ts i = Some t ->
       exists y, motion_rotate m (P1 x) (S0 t) = Ok (P1 y) /\ nth_error out i = Some y) /\
  (length l <> 1%nat -> exists out, motion_rotate m (P2 l) (S0 t) = Ok (P2 out) /\ length out = length l /\
     forall i x, nth_error l i = Some x ->
       exists y, motion_rotate m (P1 x) (S0 t) = Ok (P1 y) /\ nth_error out i = Some y) /\
  (forall x, l = [x] -> exists y, motion_rotate m (P2 l) (S0 t) = Ok (P1 y) /\ motion_rotate m (P1 x) (S0 t) = Ok (P1 y)).
Proof.
  intros m l ts t. split; [|split].
  - intros H. exists (zip_with (rot_at m) ts l). unfold motion_rotate, rotator_call, rotator_rows, scale_times.
    rewrite map_length, H, Nat.eqb_refl, zip_with_map_l. repeat split; [rewrite zip_with_length; auto|].
    intros i x t0 Hx Ht. exists (rot_at m t0 x). split; [reflexivity|]. now rewrite zip_with_nth_error, Hx, Ht.
  - intros H. exists (map (rot_at m t) l). rewrite map_length. split.
    + unfold motion_rotate, rotator_call, rotator_rows, scale_times. f_equal.
      destruct l as [|v [|w l]]; simpl in *; auto; lia.
    + split; auto. intros i x Hx. exists (rot_at m t x). split; auto. now apply map_nth_error.
  - intros x ->. exists (rot_at m t x). split; reflexivity.
Qed.
Lemma xC05_batch : exists m, make_motion (V3 0 0 1) 1 (V3 1 2 3) (V3 4 5 6) = Ok m /\
  length [0; 1/2] = length [V3 1 2 3; V3 0 1 0] /\
  (forall l, In l [[V3 1 2 3; V3 0 0 1]; [V3 0 1 0; V3 1 0 0]] -> length l = 2%nat).
Proof.
  eexists; split; [apply make_motion_unit; [apply unit_ez|pose proof PI2_1; lra]|].
  split; auto. intros l [<-|[<-|[]]]; auto.
Qed.

(** C06. translate outside [0,1] raises; a (3,) vector is translated. *)
Lemma pC06_translate_guard_and_vector : forall m x t,
  (0 <= t <= 1 -> motion_translate m (A1 (vlist x)) t = Ok (A1 (vlist (vadd x (vscale t (m_trans m)))))) /\
  (forall a, ~ (0 <= t <= 1) -> motion_translate m a t = Err AssertionError).
Proof.
  intros m x t; split.
  - intros H. unfold motion_translate, assert_.
    destruct (Rleb t 1) eqn:E1; [|rewrite Rleb_false in E1; lra].
    destruct (Rleb 0 t) eqn:E2; [|rewrite Rleb_false in E2; lra]. simpl.
    unfold vlist; simpl. repeat (f_equal; try ring).
  - intros a H. unfold motion_translate, assert_.
    destruct (Rleb t 1) eqn:E1; destruct (Rleb 0 t) eqn:E2; simpl; auto.
    rewrite Rleb_true in *. tauto.
Qed.
(** C06. On a (3,N) array every column is translated. *)
Lemma pC06_translate_columns : forall m t (pts : list vec),
  0 <= t <= 1 ->
  motion_translate m (A2 (length pts) [map vx pts; map vy pts; map vz pts]) t =
  Ok (let pts' := map (fun p => vadd p (vscale t (m_trans m))) pts in
      A2 (length pts) [map vx pts'; map vy pts'; map vz pts']).
Proof.
  intros m t pts H. unfold motion_translate, assert_.
  destruct (Rleb t 1) eqn:E1; [|rewrite Rleb_false in E1; lra].
  destruct (Rleb 0 t) eqn:E2; [|rewrite Rleb_false in E2; lra]. simpl.
  do 2 f_equal. rewrite !map_map.
  repeat (f_equal; try (apply map_ext; intros p; simpl; ring)).
Qed.
(** C06. What happens on the equally documented (N,3) layout. *)
Lemma pC06_translate_rows : forall m t (pts : list vec),
  0 <= t <= 1 ->
  (length pts <> 1%nat -> length pts <> 3%nat ->
     motion_translate m (A2 3 (map vlist pts)) t = Err RuntimeError) /\
  (forall p q r, pts = [p; q; r] ->
     let T := vscale t (m_trans m) in
     motion_translate m (A2 3 (map vlist pts)) t =
     Ok (A2 3 [vlist (vadd p (V3 (vx T) (vx T) (vx T)));
               vlist (vadd q (V3 (vy T) (vy T) (vy T)));
               vlist (vadd r (V3 (vz T) (vz T) (vz T)))])) /\
  (forall p, pts = [p] -> exists rows, motion_translate m (A2 3 (map vlist pts)) t = Ok (A2 3 rows) /\ length rows = 3%nat).
Proof.
  intros m t pts H. unfold motion_translate, assert_.
  destruct (Rleb t 1) eqn:E1; [|rewrite Rleb_false in E1; lra].
  destruct (Rleb 0 t) eqn:E2; [|rewrite Rleb_false in E2; lra]. simpl. split; [|split].
  - intros H1 H3. destruct pts as [|a [|b [|c [|d l]]]]; simpl in *; auto; lia.
  - intros p q r ->. simpl. unfold vlist; simpl. repeat (f_equal; try ring).
  - intros p ->. eexists; split; [reflexivity|reflexivity].
Qed.
(** C06 finding: the documented (N,3) use is wrong. *)
Lemma pC06_translate_rows_refuted : exists m p q r,
  make_motion (m_axis m) (m_angle m) (m_trans m) (m_origin m) = Ok m /\
  motion_translate m (A2 3 (map vlist [p; q; r])) 1 <>
  Ok (A2 3 (map vlist (map (fun x => vadd x (vscale 1 (m_trans m))) [p; q; r]))).
Proof.
  exists (Motion (V3 0 0 1) 1 (V3 1 0 0) vzero), vzero, vzero, vzero. split.
  - apply make_motion_unit; [apply unit_ez|]. pose proof PI2_1; simpl; lra.
  - destruct (pC06_translate_rows (Motion (V3 0 0 1) 1 (V3 1 0 0) vzero) 1 [vzero; vzero; vzero]) as (_ & E & _); [lra|].
    rewrite (E _ _ _ eq_refl). clear E. intros E. simpl in E. injection E. intros. unfold vzero in *; simpl in *. lra.
Qed.
