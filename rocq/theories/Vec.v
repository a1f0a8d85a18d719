(** * 3-vectors and 3x3 matrices over R: plain linear algebra used by model
    and specification alike (no code of /repo is modelled here). *)
From Verif Require Export Num.

Record vec := V3 { vx : R; vy : R; vz : R }.

Definition vzero : vec := V3 0 0 0.
Definition vadd (a b : vec) := V3 (vx a + vx b) (vy a + vy b) (vz a + vz b).
Definition vneg (a : vec) := V3 (- vx a) (- vy a) (- vz a).
Definition vsub (a b : vec) := V3 (vx a - vx b) (vy a - vy b) (vz a - vz b).
Definition vscale (c : R) (a : vec) := V3 (c * vx a) (c * vy a) (c * vz a).
Definition dot (a b : vec) : R := vx a * vx b + vy a * vy b + vz a * vz b.
Definition cross (a b : vec) : vec :=
  V3 (vy a * vz b - vz a * vy b) (vz a * vx b - vx a * vz b) (vx a * vy b - vy a * vx b).
Definition normsq (a : vec) : R := dot a a.
Definition norm (a : vec) : R := sqrt (normsq a).
Definition dist (a b : vec) : R := norm (vsub a b).
Definition triple (a b c : vec) : R := dot a (cross b c).

Record mat := M3 { r1 : vec; r2 : vec; r3 : vec }.   (* rows *)

Definition mI : mat := M3 (V3 1 0 0) (V3 0 1 0) (V3 0 0 1).
Definition mzero : mat := M3 vzero vzero vzero.
Definition mv (A : mat) (x : vec) : vec := V3 (dot (r1 A) x) (dot (r2 A) x) (dot (r3 A) x).
Definition mT (A : mat) : mat :=
  M3 (V3 (vx (r1 A)) (vx (r2 A)) (vx (r3 A)))
     (V3 (vy (r1 A)) (vy (r2 A)) (vy (r3 A)))
     (V3 (vz (r1 A)) (vz (r2 A)) (vz (r3 A))).
Definition mm (A B : mat) : mat :=
  M3 (mv (mT B) (r1 A)) (mv (mT B) (r2 A)) (mv (mT B) (r3 A)).
Definition madd (A B : mat) : mat := M3 (vadd (r1 A) (r1 B)) (vadd (r2 A) (r2 B)) (vadd (r3 A) (r3 B)).
Definition msub (A B : mat) : mat := M3 (vsub (r1 A) (r1 B)) (vsub (r2 A) (r2 B)) (vsub (r3 A) (r3 B)).
Definition mscale (c : R) (A : mat) : mat := M3 (vscale c (r1 A)) (vscale c (r2 A)) (vscale c (r3 A)).
Definition det (A : mat) : R := triple (r1 A) (r2 A) (r3 A).

(** Orthogonal with determinant +1. *)
Definition is_rotation (A : mat) : Prop := mm (mT A) A = mI /\ mm A (mT A) = mI /\ det A = 1.

Ltac vunf := cbv beta iota zeta delta [normsq det triple mm madd msub mscale mT mv cross mI mzero vadd vsub
  vneg vscale vzero dot vx vy vz r1 r2 r3] in *.
Ltac vdes := repeat match goal with
  | v : vec |- _ => destruct v as [? ? ?]
  | A : mat |- _ => destruct A as [[? ? ?] [? ? ?] [? ? ?]] end.

Lemma vec_ext a b : vx a = vx b -> vy a = vy b -> vz a = vz b -> a = b.
Proof. destruct a, b; simpl; intros; subst; auto. Qed.
Lemma mat_ext A B : r1 A = r1 B -> r2 A = r2 B -> r3 A = r3 B -> A = B.
Proof. destruct A, B; simpl; intros; subst; auto. Qed.
Ltac vext := try apply mat_ext; try apply vec_ext; cbn [r1 r2 r3]; try apply vec_ext.
Ltac veq := intros; vdes; vext; vunf; ring.

Lemma vadd_comm a b : vadd a b = vadd b a. Proof. veq. Qed.
Lemma vadd_assoc a b c : vadd a (vadd b c) = vadd (vadd a b) c. Proof. veq. Qed.
Lemma vadd_0_l a : vadd vzero a = a. Proof. veq. Qed.
Lemma vadd_0_r a : vadd a vzero = a. Proof. veq. Qed.
Lemma vsub_self a : vsub a a = vzero. Proof. veq. Qed.
Lemma vsub_add a b : vadd (vsub a b) b = a. Proof. veq. Qed.
Lemma vadd_sub a b : vsub (vadd a b) b = a. Proof. veq. Qed.
Lemma vscale_0 a : vscale 0 a = vzero. Proof. veq. Qed.
Lemma vscale_1 a : vscale 1 a = a. Proof. veq. Qed.
Lemma mv_add A x y : mv A (vadd x y) = vadd (mv A x) (mv A y). Proof. veq. Qed.
Lemma mv_sub A x y : mv A (vsub x y) = vsub (mv A x) (mv A y). Proof. veq. Qed.
Lemma mv_neg A x : mv A (vneg x) = vneg (mv A x). Proof. veq. Qed.
Lemma mv_scale A c x : mv A (vscale c x) = vscale c (mv A x). Proof. veq. Qed.
Lemma mv_mm A B x : mv (mm A B) x = mv A (mv B x). Proof. veq. Qed.
Lemma mv_I x : mv mI x = x. Proof. veq. Qed.
Lemma mm_I_l A : mm mI A = A. Proof. veq. Qed.
Lemma mm_I_r A : mm A mI = A. Proof. veq. Qed.
Lemma mT_mm A B : mT (mm A B) = mm (mT B) (mT A). Proof. veq. Qed.
Lemma mT_mT A : mT (mT A) = A. Proof. destruct A as [[? ? ?] [? ? ?] [? ? ?]]; reflexivity. Qed.
Lemma mm_assoc A B C : mm A (mm B C) = mm (mm A B) C.
Proof.
  destruct A as [a1 a2 a3]. unfold mm at 1. rewrite mT_mm, !mv_mm. reflexivity.
Qed.
Lemma det_mm A B : det (mm A B) = det A * det B. Proof. vdes; vunf; ring. Qed.
Lemma det_mT A : det (mT A) = det A. Proof. vdes; vunf; ring. Qed.
Lemma mv_madd A B x : mv (madd A B) x = vadd (mv A x) (mv B x). Proof. veq. Qed.
Lemma mv_mscale c A x : mv (mscale c A) x = vscale c (mv A x). Proof. veq. Qed.
Lemma dot_comm a b : dot a b = dot b a. Proof. vdes; vunf; ring. Qed.
Lemma dot_mv_T A x y : dot (mv A x) y = dot x (mv (mT A) y). Proof. vdes; vunf; ring. Qed.
Lemma normsq_nonneg a : 0 <= normsq a.
Proof. vdes; vunf; nra. Qed.
Lemma normsq_0 a : normsq a = 0 <-> a = vzero.
Proof.
  destruct a as [x y z]; unfold normsq, dot, vzero; simpl; split.
  - intros H. assert (x = 0 /\ y = 0 /\ z = 0) as (-> & -> & ->) by (repeat split; nra). auto.
  - intros H; inversion H; subst; ring.
Qed.
Lemma norm_nonneg a : 0 <= norm a.
Proof. apply sqrt_pos. Qed.
Lemma norm_sq a : norm a * norm a = normsq a.
Proof. apply sqrt_sqrt, normsq_nonneg. Qed.
Lemma norm_scale c a : norm (vscale c a) = Rabs c * norm a.
Proof.
  unfold norm. replace (normsq (vscale c a)) with (Rsqr c * normsq a).
  - rewrite sqrt_mult; [|apply Rle_0_sqr|apply normsq_nonneg]. now rewrite sqrt_Rsqr_abs.
  - vdes; unfold Rsqr; vunf; ring.
Qed.
Lemma norm_unit a : norm a = 1 <-> normsq a = 1.
Proof.
  unfold norm; split; intros H.
  - rewrite <- (sqrt_sqrt _ (normsq_nonneg a)), H; ring.
  - rewrite H; apply sqrt_1.
Qed.
Lemma norm_eq_normsq a b : norm a = norm b <-> normsq a = normsq b.
Proof.
  unfold norm; split; intros H; [|congruence].
  apply sqrt_inj; auto using normsq_nonneg.
Qed.

Lemma rotation_dot A x y : is_rotation A -> dot (mv A x) (mv A y) = dot x y.
Proof. intros (H & _ & _). rewrite dot_mv_T, <- mv_mm, H, mv_I. auto. Qed.
Lemma rotation_normsq A x : is_rotation A -> normsq (mv A x) = normsq x.
Proof. intros H; unfold normsq; now apply rotation_dot. Qed.
Lemma rotation_norm A x : is_rotation A -> norm (mv A x) = norm x.
Proof. intros H; unfold norm; now rewrite rotation_normsq. Qed.
Lemma triple_mv A x y z : triple (mv A x) (mv A y) (mv A z) = det A * triple x y z.
Proof. vdes; vunf; ring. Qed.
Lemma rotation_mm A B : is_rotation A -> is_rotation B -> is_rotation (mm A B).
Proof.
  intros (H1 & H2 & H3) (H4 & H5 & H6); repeat split.
  - rewrite mT_mm, mm_assoc, <- (mm_assoc (mT B)), H1, mm_I_r; auto.
  - rewrite mT_mm, mm_assoc, <- (mm_assoc A), H5, mm_I_r; auto.
  - rewrite det_mm, H3, H6; ring.
Qed.
Lemma rotation_I : is_rotation mI.
Proof. repeat split; veq. Qed.
Lemma rotation_mT A : is_rotation A -> is_rotation (mT A).
Proof. intros (H1 & H2 & H3); repeat split; rewrite ?mT_mT, ?det_mT; auto. Qed.

(** Cauchy-Schwarz. *)
Lemma lagrange a b : normsq a * normsq b = dot a b * dot a b + normsq (cross a b).
Proof. vdes; vunf; ring. Qed.
Lemma cauchy_sq a b : dot a b * dot a b <= normsq a * normsq b.
Proof. rewrite lagrange. pose proof (normsq_nonneg (cross a b)); lra. Qed.
Lemma cauchy a b : Rabs (dot a b) <= norm a * norm b.
Proof.
  apply Rsqr_incr_0_var; [|apply Rmult_le_pos; apply norm_nonneg].
  rewrite <- Rsqr_abs. unfold Rsqr.
  replace (norm a * norm b * (norm a * norm b)) with ((norm a * norm a) * (norm b * norm b)) by ring.
  rewrite !norm_sq. apply cauchy_sq.
Qed.
Lemma dot_le_norm a b : dot a b <= norm a * norm b.
Proof. eapply Rle_trans; [apply Rle_abs|apply cauchy]. Qed.
Lemma normsq_add a b : normsq (vadd a b) = normsq a + 2 * dot a b + normsq b.
Proof. vdes; vunf; ring. Qed.
Lemma normsq_sub a b : normsq (vsub a b) = normsq a - 2 * dot a b + normsq b.
Proof. vdes; vunf; ring. Qed.
Lemma norm_triangle a b : norm (vadd a b) <= norm a + norm b.
Proof.
  apply Rsqr_incr_0_var; [|pose proof (norm_nonneg a); pose proof (norm_nonneg b); lra].
  unfold Rsqr. rewrite norm_sq, normsq_add.
  replace ((norm a + norm b) * (norm a + norm b)) with
    (norm a * norm a + 2 * (norm a * norm b) + norm b * norm b) by ring.
  rewrite !norm_sq. pose proof (dot_le_norm a b). lra.
Qed.
Lemma norm_pos a : a <> vzero -> 0 < norm a.
Proof.
  intros H. apply sqrt_lt_R0. pose proof (normsq_nonneg a) as H0.
  destruct H0 as [|H0]; auto. symmetry in H0. apply normsq_0 in H0. contradiction.
Qed.
