(** * Proofs about strain conversion. *)
From Coq Require Import Classical.
From Verif Require Import Vec Spec SStrain MLaue PLaue MStrain.

(** ** C65 *)
Lemma pC65_tensor_of_vector : forall e, symmetric e -> strain_as_tensor (strain_as_vector e) = Ok e.
Proof.
  intros [[a b c] [d e f] [g h i]] H. unfold symmetric, mT in H; simpl in H. inversion H; subst.
  reflexivity.
Qed.
Lemma pC65_vector_of_tensor : forall v, length v = 6%nat ->
  exists e, strain_as_tensor v = Ok e /\ symmetric e /\ strain_as_vector e = v.
Proof.
  intros v H. destruct v as [|a [|b [|c [|d [|e [|f [|]]]]]]]; try discriminate.
  eexists. split; [reflexivity|]. split; reflexivity.
Qed.
Lemma pC65_wrong_length : forall v, length v <> 6%nat -> strain_as_tensor v = Err ValueError.
Proof.
  intros v H. destruct v as [|a [|b [|c [|d [|e [|f [|]]]]]]]; simpl in *; try reflexivity. contradiction.
Qed.
(** The packing keeps six of nine entries: a non-symmetric tensor is not recovered. *)
Lemma pC65_only_symmetric_refuted : exists e, strain_as_tensor (strain_as_vector e) <> Ok e.
Proof.
  exists (M3 (V3 0 0 0) (V3 1 0 0) (V3 0 0 0)). cbn. intros H. inversion H. lra.
Qed.
Lemma xC65_sym : symmetric (M3 (V3 1 2 3) (V3 2 4 5) (V3 3 5 6)).
Proof. reflexivity. Qed.

(** ** positive (semi)definiteness of symmetric 3x3 matrices *)
Definition sym3 (a b c p q r : R) : mat := M3 (V3 a p q) (V3 p b r) (V3 q r c).
Lemma quad_sym3 a b c p q r x y z : quad (sym3 a b c p q r) (V3 x y z) =
  a*x*x + b*y*y + c*z*z + 2*p*x*y + 2*q*x*z + 2*r*y*z.
Proof. unfold quad, sym3. vunf. ring. Qed.
Lemma det_sym3 a b c p q r : det (sym3 a b c p q r) = a*b*c + 2*p*q*r - a*r*r - b*q*q - c*p*p.
Proof. unfold sym3. vunf. ring. Qed.
Lemma sq_nn x : 0 <= x * x.
Proof. nra. Qed.
Lemma sq0 p : 0 <= - (p * p) -> p = 0.
Proof. nra. Qed.
Lemma psd2 a b p : 0 <= a -> 0 <= b -> 0 <= a*b - p*p -> forall x y, 0 <= a*x*x + b*y*y + 2*p*x*y.
Proof.
  intros Ha Hb Hd x y. destruct Ha as [Ha|<-].
  - apply (Rmult_le_reg_l a); auto. rewrite Rmult_0_r.
    replace (a * (a*x*x + b*y*y + 2*p*x*y)) with ((a*x + p*y)*(a*x+p*y) + (a*b - p*p)*(y*y)) by ring.
    apply Rplus_le_le_0_compat; [apply sq_nn|apply Rmult_le_pos; [auto|apply sq_nn]].
  - assert (p = 0) by (apply sq0; lra). subst. pose proof (sq_nn y). nra.
Qed.
Lemma psd3 a b c p q r : 0 <= a -> 0 <= b -> 0 <= c -> 0 <= a*b - p*p -> 0 <= a*c - q*q -> 0 <= b*c - r*r ->
  0 <= det (sym3 a b c p q r) -> forall x y z, 0 <= a*x*x + b*y*y + c*z*z + 2*p*x*y + 2*q*x*z + 2*r*y*z.
Proof.
  intros Ha Hb Hc H1 H2 H3 Hd x y z. rewrite det_sym3 in Hd. destruct Ha as [Ha|<-].
  - apply (Rmult_le_reg_l a); auto. rewrite Rmult_0_r.
    replace (a * (a*x*x + b*y*y + c*z*z + 2*p*x*y + 2*q*x*z + 2*r*y*z)) with
      ((a*x + p*y + q*z)*(a*x+p*y+q*z) + ((a*b - p*p)*y*y + (a*c-q*q)*z*z + 2*(a*r - p*q)*y*z)) by ring.
    assert (0 <= (a*b - p*p)*y*y + (a*c-q*q)*z*z + 2*(a*r - p*q)*y*z).
    { apply psd2; auto. replace ((a*b-p*p)*(a*c-q*q) - (a*r-p*q)*(a*r-p*q)) with (a * (a*b*c + 2*p*q*r - a*r*r - b*q*q - c*p*p)) by ring.
      apply Rmult_le_pos; lra. }
    apply Rplus_le_le_0_compat; [apply sq_nn|auto].
  - assert (p = 0) by (apply sq0; lra). assert (q = 0) by (apply sq0; lra). subst.
    pose proof (psd2 b c r Hb Hc H3 y z). lra.
Qed.
(** principal minors decide the sign of the quadratic form *)
Lemma psd_iff C : no_negative_eig C = true <-> (forall v, 0 <= quad (lower_sym C) v).
Proof.
  destruct C as [[a u1 u2] [p b u3] [q r c]]. unfold no_negative_eig, lower_sym. cbn [r1 r2 r3 vx vy vz].
  change (M3 (V3 a p q) (V3 p b r) (V3 q r c)) with (sym3 a b c p q r).
  rewrite !andb_true_iff, !Rleb_true. split.
  - intros ((((((H1 & H2) & H3) & H4) & H5) & H6) & H7) [x y z]. rewrite quad_sym3. apply psd3; auto.
  - intros H.
    assert (Q : forall x y z, 0 <= a*x*x + b*y*y + c*z*z + 2*p*x*y + 2*q*x*z + 2*r*y*z)
      by (intros; rewrite <- quad_sym3; apply H).
    assert (Ha : 0 <= a) by (pose proof (Q 1 0 0); lra).
    assert (Hb : 0 <= b) by (pose proof (Q 0 1 0); lra).
    assert (Hc : 0 <= c) by (pose proof (Q 0 0 1); lra).
    assert (M : forall a b p, 0 <= a -> 0 <= b -> (forall x y, 0 <= a*x*x + b*y*y + 2*p*x*y) -> 0 <= a*b - p*p).
    { clear. intros a b p Ha Hb Q. destruct Ha as [Ha|<-].
      - pose proof (Q (-p) a). replace (a * - p * - p + b*a*a + 2*p * - p * a) with (a * (a*b - p*p)) in H by ring.
        apply (Rmult_le_reg_l a); lra.
      - destruct (Req_EM_T p 0) as [->|Hp]; [lra|].
        pose proof (Q (- (b+1)/(2*p)) 1). replace (0 * (- (b + 1) / (2 * p)) * (- (b + 1) / (2 * p)) + b * 1 * 1 + 2 * p * (- (b + 1) / (2 * p)) * 1)
          with (-1) in H by (field; auto). lra. }
    assert (M1 : 0 <= a*b - p*p) by (apply M; auto; intros x y; pose proof (Q x y 0); lra).
    assert (M2 : 0 <= a*c - q*q) by (apply M; auto; intros x y; pose proof (Q x 0 y); lra).
    assert (M3' : 0 <= b*c - r*r) by (apply M; auto; intros x y; pose proof (Q 0 x y); lra).
    repeat (split; auto). rewrite det_sym3.
    (* evaluate the form at the cofactor vector of the last row *)
    set (d := a*b*c + 2*p*q*r - a*r*r - b*q*q - c*p*p).
    assert (D1 : 0 <= d * (a*b - p*p)).
    { pose proof (Q (p*r - b*q) (p*q - a*r) (a*b - p*p)) as X.
      match type of X with 0 <= ?e => replace e with (d * (a*b-p*p)) in X by (unfold d; ring) end. auto. }
    destruct M1 as [M1|M1].
    + apply (Rmult_le_reg_r (a*b-p*p)); lra.
    + (* ab = p^2 : then d = -(…)^2-like quantity must vanish *)
      assert (D2 : 0 <= d * (a*c - q*q)).
      { pose proof (Q (q*r - c*p) (a*c - q*q) (p*q - a*r)) as X.
        match type of X with 0 <= ?e => replace e with (d * (a*c-q*q)) in X by (unfold d; ring) end. auto. }
      destruct M2 as [M2|M2]; [apply (Rmult_le_reg_r (a*c-q*q)); lra|].
      (* both minors vanish: a*d = -(ar-pq)^2 *)
      assert (E : a * d = - ((a*r - p*q)*(a*r - p*q))).
      { replace (a*d) with ((a*b-p*p)*(a*c-q*q) - (a*r-p*q)*(a*r-p*q)) by (unfold d; ring). rewrite <- M1. ring. }
      destruct Ha as [Ha|<-].
      * (* vector with nonnegativity forces ar = pq *)
        assert (Z : a*r - p*q = 0).
        { assert (F : forall y z, 0 <= 2 * (a*r - p*q) * y * z).
          { intros y z. pose proof (Q (-(p*y+q*z)) (a*y) (a*z)) as X.
            match type of X with 0 <= ?e => replace e with (a * ((a*b-p*p)*y*y + (a*c-q*q)*z*z + 2*(a*r-p*q)*y*z)) in X by ring end.
            rewrite <- M1, <- M2 in X. apply (Rmult_le_reg_l a); auto. lra. }
          pose proof (F 1 1). pose proof (F 1 (-1)). lra. }
        rewrite Z in E. assert (d = 0); [|lra]. apply (Rmult_eq_reg_l a); lra.
      * assert (p = 0) by (apply sq0; lra). assert (q = 0) by (apply sq0; lra). subst p q. unfold d. lra.
Qed.

Lemma mT_quad L v : quad (mm L (mT L)) v = normsq (mv (mT L) v).
Proof. unfold quad, normsq. rewrite mv_mm. rewrite dot_comm, dot_mv_T. reflexivity. Qed.

Lemma cholesky_sound C L : cholesky C = Ok L ->
  mm L (mT L) = lower_sym C /\ 0 < vx (r1 L) /\ 0 < vy (r2 L) /\ 0 < vz (r3 L) /\
  vy (r1 L) = 0 /\ vz (r1 L) = 0 /\ vz (r2 L) = 0.
Proof.
  destruct C as [[a u1 u2] [p b u3] [q r c]]. unfold cholesky, lower_sym. cbn [r1 r2 r3 vx vy vz].
  destruct (Rle_dec a 0) as [|Ha]; [discriminate|]. apply Rnot_le_lt in Ha.
  set (l11 := sqrt a). assert (P1 : 0 < l11) by (apply sqrt_lt_R0; auto).
  assert (S1 : l11 * l11 = a) by (apply sqrt_sqrt; lra).
  destruct (Rle_dec (b - p / l11 * (p / l11)) 0) as [|H2]; [discriminate|]. apply Rnot_le_lt in H2.
  set (l21 := p / l11) in *. set (l31 := q / l11) in *.
  assert (Q1 : l11 * l21 = p) by (unfold l21; field; lra). assert (Q2 : l11 * l31 = q) by (unfold l31; field; lra).
  set (l22 := sqrt (b - l21*l21)) in *. assert (P2 : 0 < l22) by (apply sqrt_lt_R0; auto).
  assert (S2 : l22 * l22 = b - l21*l21) by (apply sqrt_sqrt; lra).
  set (l32 := (r - l31*l21)/l22) in *. assert (Q3 : l22 * l32 = r - l31*l21) by (unfold l32; field; lra).
  destruct (Rle_dec (c - l31*l31 - l32*l32) 0) as [|H3]; [discriminate|]. apply Rnot_le_lt in H3.
  set (l33 := sqrt (c - l31*l31 - l32*l32)) in *. assert (P3 : 0 < l33) by (apply sqrt_lt_R0; auto).
  assert (S3 : l33 * l33 = c - l31*l31 - l32*l32) by (apply sqrt_sqrt; lra).
  intros H; inversion H; subst L; clear H. cbn [r1 r2 r3 vx vy vz].
  split; [|repeat split; auto].
  clearbody l11 l21 l31 l22 l32 l33. vext; vunf; nra.
Qed.
Lemma tri_det L : vy (r1 L) = 0 -> vz (r1 L) = 0 -> vz (r2 L) = 0 -> det L = vx (r1 L) * vy (r2 L) * vz (r3 L).
Proof. destruct L as [[a b c] [d e f] [g h i]]. simpl. intros -> -> ->. vunf. ring. Qed.
Lemma cholesky_pd C L : cholesky C = Ok L -> positive_definite (lower_sym C).
Proof.
  intros H v Hv. destruct (cholesky_sound _ _ H) as (E & P1 & P2 & P3 & Z1 & Z2 & Z3).
  rewrite <- E, mT_quad. destruct (normsq_nonneg (mv (mT L) v)) as [|H0]; auto. exfalso.
  symmetry in H0. apply normsq_0 in H0. apply Hv.
  destruct L as [[a b c] [d e f] [g h i]], v as [x y z]. simpl in *. subst.
  unfold mv, mT, vzero, dot in H0; simpl in H0.
  pose proof (f_equal vx H0) as A. pose proof (f_equal vy H0) as B. pose proof (f_equal vz H0) as D. cbn [vx vy vz] in A, B, D. clear H0.
  assert (z = 0) by (apply (Rmult_eq_reg_l i); lra). subst.
  assert (y = 0) by (apply (Rmult_eq_reg_l e); lra). subst.
  assert (x = 0) by (apply (Rmult_eq_reg_l a); lra). subst. reflexivity.
Qed.
Lemma pd_cholesky C : positive_definite (lower_sym C) -> exists L, cholesky C = Ok L.
Proof.
  destruct C as [[a u1 u2] [p b u3] [q r c]]. unfold cholesky, lower_sym. cbn [r1 r2 r3 vx vy vz].
  change (M3 (V3 a p q) (V3 p b r) (V3 q r c)) with (sym3 a b c p q r). intros H.
  assert (Q : forall x y z, (x <> 0 \/ y <> 0 \/ z <> 0) -> 0 < a*x*x + b*y*y + c*z*z + 2*p*x*y + 2*q*x*z + 2*r*y*z).
  { intros x y z N. rewrite <- quad_sym3. apply H. intros E; inversion E; subst; tauto. }
  assert (Ha : 0 < a) by (pose proof (Q 1 0 0 ltac:(left; lra)); lra).
  destruct (Rle_dec a 0) as [|_]; [lra|].
  set (l11 := sqrt a). assert (P1 : 0 < l11) by (apply sqrt_lt_R0; auto).
  assert (S1 : l11 * l11 = a) by (apply sqrt_sqrt; lra).
  set (l21 := p / l11) in *. set (l31 := q / l11) in *.
  assert (Q1 : l11 * l21 = p) by (unfold l21; field; lra). assert (Q2 : l11 * l31 = q) by (unfold l31; field; lra).
  assert (D2 : 0 < b - l21*l21).
  { pose proof (Q (- p / a) 1 0 ltac:(right; left; lra)) as X.
    replace (a * (- p / a) * (- p / a) + b * 1 * 1 + c * 0 * 0 + 2 * p * (- p / a) * 1 + 2 * q * (- p / a) * 0 + 2 * r * 1 * 0)
      with (b - p*p/a) in X by (field; lra).
    replace (l21*l21) with (p*p/a); auto. rewrite <- Q1, <- S1. field. lra. }
  destruct (Rle_dec (b - l21*l21) 0) as [|_]; [lra|].
  set (l22 := sqrt (b - l21*l21)) in *. assert (P2 : 0 < l22) by (apply sqrt_lt_R0; auto).
  assert (S2 : l22 * l22 = b - l21*l21) by (apply sqrt_sqrt; lra).
  set (l32 := (r - l31*l21)/l22) in *. assert (Q3 : l22 * l32 = r - l31*l21) by (unfold l32; field; lra).
  assert (D3 : 0 < c - l31*l31 - l32*l32).
  { (* solve L^T w = (0,0,..): choose z=1, y = -l32/l22, x = -(l21 y + l31)/l11 *)
    set (y := - l32 / l22). set (x := - (l21 * y + l31) / l11).
    pose proof (Q x y 1 ltac:(right; right; lra)) as X.
    assert (Ey : l22 * y = - l32) by (unfold y; field; lra).
    assert (Ex : l11 * x = - (l21*y + l31)) by (unfold x; field; lra).
    assert (Hb : b = l22*l22 + l21*l21) by lra. assert (Hr : r = l22*l32 + l31*l21) by lra.
    clearbody x y l11 l21 l31 l22 l32. subst a p q b r.
    replace (l11 * l11 * x * x + (l22 * l22 + l21 * l21) * y * y + c * 1 * 1 + 2 * (l11 * l21) * x * y + 2 * (l11 * l31) * x * 1 + 2 * (l22 * l32 + l31 * l21) * y * 1)
      with ((l11*x)*(l11*x) + (l22*y)*(l22*y) + l21*l21*y*y + c + 2*l21*y*(l11*x) + 2*l31*(l11*x) + 2*l32*(l22*y) + 2*l31*l21*y) in X by ring.
    rewrite Ex, Ey in X. nra. }
  destruct (Rle_dec (c - l31*l31 - l32*l32) 0) as [|_]; [lra|]. eauto.
Qed.
Lemma pd_psd C : positive_definite (lower_sym C) -> no_negative_eig C = true.
Proof.
  intros H. apply psd_iff. intros v. destruct (Req_EM_T (normsq v) 0) as [E|E].
  - apply normsq_0 in E. subst. unfold quad. vunf. lra.
  - left. apply H. intros X. apply E. subst. vunf; ring.
Qed.

Lemma minv_l A : det A <> 0 -> mm (minv A) A = mI.
Proof.
  intros H. unfold minv.
  set (C := mT (M3 (cross (r2 A) (r3 A)) (cross (r3 A) (r1 A)) (cross (r1 A) (r2 A)))).
  assert (E : mm C A = mscale (det A) mI) by (unfold C; clear; veq).
  transitivity (mscale (/ det A) (mm C A)); [generalize (/ det A); clearbody C; clear; veq|].
  rewrite E. destruct A as [[? ? ?] [? ? ?] [? ? ?]]. unfold mscale, mI, vscale; simpl. 
  set (d := det _) in *. f_equal; f_equal; field; auto.
Qed.
Lemma minv_r A : det A <> 0 -> mm A (minv A) = mI.
Proof.
  intros H. unfold minv.
  set (C := mT (M3 (cross (r2 A) (r3 A)) (cross (r3 A) (r1 A)) (cross (r1 A) (r2 A)))).
  assert (E : mm A C = mscale (det A) mI) by (unfold C; clear; veq).
  transitivity (mscale (/ det A) (mm A C)); [generalize (/ det A); clearbody C; clear; veq|].
  rewrite E. destruct A as [[? ? ?] [? ? ?] [? ? ?]]. unfold mscale, mI, vscale; simpl. 
  set (d := det _) in *. f_equal; f_equal; field; auto.
Qed.
Lemma inv_unique A B C : mm A B = mI -> mm C A = mI -> B = C.
Proof. intros H1 H2. rewrite <- (mm_I_l B), <- H2, <- mm_assoc, H1, mm_I_r. auto. Qed.
Lemma det_mI : det mI = 1.
Proof. vunf; ring. Qed.

(** one element: B = F^-1 B0 with F upper triangular, positive diagonal, F^T F = C *)
Lemma eps_to_B1_sound B0 eps B : eps_to_B1 B0 eps = Ok B ->
  exists F, mm (mT F) F = lower_sym (metric eps) /\ mm F B = B0 /\ 0 < det F /\
    vx (r2 F) = 0 /\ vx (r3 F) = 0 /\ vy (r3 F) = 0.
Proof.
  unfold eps_to_B1. destruct (cholesky (metric eps)) as [L|] eqn:E; [|discriminate]. cbn [bind].
  destruct (cholesky_sound _ _ E) as (EL & P1 & P2 & P3 & Z1 & Z2 & Z3).
  assert (HD : 0 < det (mT L)).
  { rewrite det_mT, tri_det by auto. repeat apply Rmult_lt_0_compat; auto. }
  unfold inv_checked. destruct (Req_EM_T (det (mT L)) 0); [lra|]. cbn [bind]. intros H; inversion H; subst B.
  exists (mT L). rewrite mT_mT, mm_assoc, minv_r, mm_I_l by auto. repeat split; auto.
  all: destruct L as [[? ? ?] [? ? ?] [? ? ?]]; simpl in *; auto.
Qed.
Lemma eps_to_B1_ok B0 eps : positive_definite (lower_sym (metric eps)) -> exists B, eps_to_B1 B0 eps = Ok B.
Proof.
  intros H. destruct (pd_cholesky _ H) as (L & E). unfold eps_to_B1. rewrite E. cbn [bind].
  destruct (cholesky_sound _ _ E) as (EL & P1 & P2 & P3 & Z1 & Z2 & Z3).
  assert (HD : 0 < det (mT L)).
  { rewrite det_mT, tri_det by auto. repeat apply Rmult_lt_0_compat; auto. }
  unfold inv_checked. destruct (Req_EM_T (det (mT L)) 0); [lra|]. cbn [bind]. eauto.
Qed.
Lemma lower_sym_id C : symmetric C -> lower_sym C = C.
Proof. destruct C as [[a b c] [d e f] [g h i]]. unfold symmetric, lower_sym, mT; simpl. intros H; inversion H; subst; auto. Qed.
Lemma metric_sym e : symmetric e -> symmetric (metric e).
Proof. unfold symmetric, metric. intros H. rewrite <- H at 2. clear. veq. Qed.

Lemma metric_cg e : metric e = cauchy_green e.
Proof. unfold metric, cauchy_green. veq. Qed.
Lemma crystal_strain_spec U e : crystal_strain U e = to_crystal U e.
Proof. apply mm_assoc. Qed.
Lemma crystal_strain_sym U e : symmetric e -> symmetric (crystal_strain U e).
Proof. unfold symmetric, crystal_strain. intros H. rewrite !mT_mm, mT_mT, H. symmetry. apply mm_assoc. Qed.
Lemma lab_inv B0 es Us Bs : lab_strain_to_B B0 es Us = Ok Bs ->
  length es = length Us /\
  Forall2 (fun eu B => eps_to_B1 B0 (crystal_strain (snd eu) (fst eu)) = Ok B) (combine es Us) Bs.
Proof.
  unfold lab_strain_to_B, epsilon_to_b. destruct (Nat.eqb (length es) (length Us)) eqn:E; [|discriminate].
  apply Nat.eqb_eq in E. destruct (forallb _ _).
  - intros H. split; auto. apply traverse_spec in H.
    remember (map _ (combine es Us)) as l eqn:El. revert H El. generalize (combine es Us). clear. intros c H. revert c.
    induction H; intros c E; destruct c; simpl in E; inversion E; subst; constructor; auto.
  - destruct (Nat.ltb _ 3); discriminate.
Qed.
Lemma Forall2_nth' {A B} (P : A -> B -> Prop) l m i x y : Forall2 P l m -> nth_error l i = Some x -> nth_error m i = Some y -> P x y.
Proof.
  intros H; revert i; induction H; intros [|i] E1 E2; simpl in *; try discriminate.
  - inversion E1; inversion E2; subst; auto.
  - eauto.
Qed.
Lemma combine_nth {A B} (l : list A) (m : list B) i x y : nth_error l i = Some x -> nth_error m i = Some y ->
  nth_error (combine l m) i = Some (x, y).
Proof. revert m i; induction l; intros [|b m] [|i]; simpl; intros; try discriminate; auto. congruence. Qed.

(** ** C20 *)
(** The lattice matrix of each element encodes exactly its strain: with B0 the
    unstrained reciprocal matrix, B0 = F B where F is upper triangular with
    positive determinant and F^T F = I + 2 U^T eps U. *)
Lemma pC20_metric : forall B0 es Us Bs i e U B,
  lab_strain_to_B B0 es Us = Ok Bs ->
  nth_error es i = Some e -> nth_error Us i = Some U -> nth_error Bs i = Some B -> symmetric e ->
  exists F, upper_triangular F /\ 0 < det F /\ mm F B = B0 /\ mm (mT F) F = cauchy_green (to_crystal U e).
Proof.
  intros B0 es Us Bs i e U B H He HU HB Hs. destruct (lab_inv _ _ _ _ H) as (_ & HF).
  pose proof (Forall2_nth' _ _ _ _ _ _ HF (combine_nth _ _ _ _ _ He HU) HB) as E. cbn [fst snd] in E.
  destruct (eps_to_B1_sound _ _ _ E) as (F & E1 & E2 & E3 & E4 & E5 & E6).
  exists F. repeat split; auto.
  rewrite E1, lower_sym_id by (apply metric_sym, crystal_strain_sym; auto).
  rewrite metric_cg, crystal_strain_spec. reflexivity.
Qed.
(** Physical meaning: for every lattice plane the spacing d = 2 pi/|G| of the
    strained element and d0 of the unstrained lattice satisfy
    (d/d0)^2 = 1 + 2 N.eps N, with N the lab-frame plane normal and eps the
    lab-frame strain given by the user. *)
Lemma pC20_plane_spacing : forall B0 es Us Bs i e U B h G N,
  lab_strain_to_B B0 es Us = Ok Bs ->
  nth_error es i = Some e -> nth_error Us i = Some U -> nth_error Bs i = Some B ->
  symmetric e -> is_rotation U ->
  G = mv U (mv B h) -> G <> vzero -> N = vscale (/ norm G) G ->
  unit N /\ (norm (mv B0 h) / norm G) ^ 2 = 1 + 2 * quad e N.
Proof.
  intros B0 es Us Bs i e U B h G N H He HU HB Hs HR EG Hnz EN.
  destruct (pC20_metric _ _ _ _ _ _ _ _ H He HU HB Hs) as (F & _ & _ & FB & FF).
  pose proof (norm_pos G Hnz) as Hn. split.
  { unfold unit. rewrite EN, norm_scale, Rabs_right; [field; lra|]. apply Rle_ge. left. apply Rinv_0_lt_compat; auto. }
  assert (E1 : normsq (mv B0 h) = dot (mv B h) (mv (cauchy_green (to_crystal U e)) (mv B h))).
  { rewrite <- FB, mv_mm. unfold normsq. rewrite dot_mv_T, <- mv_mm, FF. reflexivity. }
  set (g := mv B h) in *.
  assert (E2 : dot g (mv (cauchy_green (to_crystal U e)) g) = normsq g + 2 * dot G (mv e G)).
  { unfold cauchy_green. rewrite mv_madd, mv_mscale, mv_I. unfold to_crystal. rewrite !mv_mm.
    rewrite <- EG. generalize (mv e G). intros w.
    replace (dot G w) with (dot g (mv (mT U) w)) by (rewrite EG, dot_mv_T; reflexivity).
    generalize (mv (mT U) w). clear. intros. vdes; vunf; ring. }
  assert (E3 : normsq g = normsq G) by (rewrite EG; symmetry; apply rotation_normsq; auto).
  assert (E4 : quad e N = dot G (mv e G) / normsq G).
  { rewrite EN. unfold quad. rewrite mv_scale. generalize (mv e G). intros w.
    rewrite <- norm_sq. replace (dot (vscale (/ norm G) G) (vscale (/ norm G) w)) with (/ norm G * / norm G * dot G w)
      by (generalize (/ norm G); clear; intros; vdes; vunf; ring). field. lra. }
  rewrite E4. assert (Hq : 0 < normsq G) by (rewrite <- norm_sq; nra).
  replace ((norm (mv B0 h) / norm G) ^ 2) with (normsq (mv B0 h) / normsq G) by (rewrite <- !norm_sq; field; lra).
  rewrite E1, E2, E3. field. lra.
Qed.
(** Converting B back to a strain vector recovers the crystal-frame strain. *)
Lemma pC20_round_trip : forall B0 es Us Bs i e U B,
  lab_strain_to_B B0 es Us = Ok Bs -> det B0 <> 0 ->
  nth_error es i = Some e -> nth_error Us i = Some U -> nth_error Bs i = Some B -> symmetric e ->
  b_to_epsilon B B0 = Ok (strain_as_vector (to_crystal U e)).
Proof.
  intros B0 es Us Bs i e U B H H0 He HU HB Hs.
  destruct (pC20_metric _ _ _ _ _ _ _ _ H He HU HB Hs) as (F & _ & HF & FB & FF).
  assert (DB : det B <> 0).
  { intros X. apply H0. rewrite <- FB, det_mm, X. ring. }
  unfold b_to_epsilon, inv_checked. destruct (Req_EM_T (det B) 0); [contradiction|]. cbn [bind].
  rewrite <- FB, <- mm_assoc, minv_r, mm_I_r by auto. rewrite FF. f_equal. f_equal.
  unfold cauchy_green. generalize (to_crystal U e). clear. intros. vdes; vext; vunf; field.
Qed.
Lemma crystal_zero U : crystal_strain U mzero = mzero.
Proof. unfold crystal_strain. veq. Qed.
(** Zero strain leaves the lattice unstrained, for any orientation. *)
Lemma pC20_zero_strain : forall B0 U, lab_strain_to_B B0 [mzero] [U] = Ok [B0].
Proof.
  intros B0 U. unfold lab_strain_to_B. cbn [length Nat.eqb combine map fst snd]. rewrite crystal_zero.
  assert (PD : positive_definite (lower_sym (metric mzero))).
  { intros v Hv. replace (quad (lower_sym (metric mzero)) v) with (normsq v) by (unfold quad, metric, lower_sym; clear; vdes; vunf; ring).
    destruct (normsq_nonneg v) as [|E]; auto. symmetry in E. apply normsq_0 in E. contradiction. }
  unfold epsilon_to_b. cbn [forallb]. rewrite (pd_psd _ PD). cbn [andb traverse].
  destruct (eps_to_B1_ok B0 mzero PD) as (B & E). rewrite E. cbn [bind]. do 2 f_equal.
  unfold eps_to_B1, cholesky in E.
  replace (lower_sym (metric mzero)) with mI in E by (unfold metric, lower_sym; vext; vunf; ring).
  cbn [mI r1 r2 r3 vx vy vz] in E.
  destruct (Rle_dec 1 0); [lra|]. rewrite sqrt_1 in E.
  replace (1 - 0 / 1 * (0 / 1)) with 1 in E by field.
  destruct (Rle_dec 1 0); [lra|]. rewrite sqrt_1 in E.
  replace (1 - (0 - 0 / 1 * (0 / 1)) / 1 * ((0 - 0 / 1 * (0 / 1)) / 1)) with 1 in E by field.
  destruct (Rle_dec 1 0); [lra|]. rewrite sqrt_1 in E. cbn [bind] in E.
  replace (M3 (V3 1 0 0) (V3 (0/1) 1 0) (V3 (0/1) ((0 - 0/1*(0/1))/1) 1)) with mI in E by (unfold mI; vext; vunf; field).
  change (mT mI) with mI in E.
  unfold inv_checked in E. rewrite det_mI in E. destruct (Req_EM_T 1 0); [lra|]. cbn [bind] in E.
  inversion E. transitivity (mm mI B0); [|apply mm_I_l]. f_equal.
  transitivity (mm (minv mI) mI); [now rewrite mm_I_r|apply minv_l; rewrite det_mI; lra].
Qed.

(** ** C21 *)
Lemma not_psd C : no_negative_eig C = false <-> has_negative_direction (lower_sym C).
Proof.
  unfold has_negative_direction. split.
  - intros H. apply NNPP. intros N. assert (no_negative_eig C = true); [|congruence].
    apply psd_iff. intros v. apply Rnot_lt_le. intros L. apply N. eauto.
  - intros (v & L). destruct (no_negative_eig C) eqn:E; auto. pose proof (proj1 (psd_iff C) E v). lra.
Qed.
Lemma forallb_false {A} (f : A -> bool) l : forallb f l = false <-> exists x, In x l /\ f x = false.
Proof.
  induction l as [|a l IH]; simpl; [split; [discriminate|intros (x & [] & _)]|].
  rewrite andb_false_iff, IH. split.
  - intros [H|(x & H & E)]; eauto.
  - intros (x & [->|H] & E); eauto.
Qed.
Lemma cholesky_err C : ~ positive_definite (lower_sym C) -> cholesky C = Err LinAlgError.
Proof.
  intros H. destruct (cholesky C) as [L|e] eqn:E; [exfalso; apply H; eapply cholesky_pd; eauto|].
  unfold cholesky in E. repeat (match type of E with context [Rle_dec ?x 0] => destruct (Rle_dec x 0) end; [congruence|]).
  discriminate.
Qed.
(** The outcome for a batch of crystal-frame strains: matrices for every element
    when all metrics are positive definite; otherwise an exception - ValueError as
    documented if some metric has a negative direction and the batch has at
    least three elements, IndexError for shorter batches, LinAlgError if all
    are non-negative but one is singular. *)
Lemma pC21_outcomes : forall B0 es, Forall symmetric es ->
  (Forall (fun e => positive_definite (cauchy_green e)) es /\
     exists Bs, epsilon_to_b B0 es = Ok Bs /\ length Bs = length es) \/
  (Exists (fun e => has_negative_direction (cauchy_green e)) es /\
     epsilon_to_b B0 es = Err (if Nat.ltb (length es) 3 then IndexError else ValueError)) \/
  (Forall (fun e => ~ has_negative_direction (cauchy_green e)) es /\
     Exists (fun e => ~ positive_definite (cauchy_green e)) es /\
     epsilon_to_b B0 es = Err LinAlgError).
Proof.
  intros B0 es Hs.
  assert (L : forall e, In e es -> lower_sym (metric e) = cauchy_green e).
  { intros e He. rewrite lower_sym_id, metric_cg; auto. apply metric_sym. eapply Forall_forall; eauto. }
  unfold epsilon_to_b.
  destruct (forallb (fun e => no_negative_eig (metric e)) es) eqn:B.
  - rewrite forallb_forall in B.
    destruct (classic (Forall (fun e => positive_definite (cauchy_green e)) es)) as [P|P].
    + left. split; auto.
      destruct (traverse_ok (eps_to_B1 B0) es) as (Bs & E).
      { intros e He. apply eps_to_B1_ok. rewrite (L e He). rewrite Forall_forall in P. auto. }
      exists Bs. split; auto. apply traverse_spec in E. clear - E. induction E; simpl; congruence.
    + right; right.
      assert (X : Exists (fun e => ~ positive_definite (cauchy_green e)) es).
      { apply Exists_exists. apply NNPP. intros N. apply P. apply Forall_forall. intros e He. apply NNPP. intros Q. apply N. eauto. }
      repeat split; auto.
      * apply Forall_forall. intros e He N. rewrite <- (L e He) in N. apply not_psd in N. rewrite (B e He) in N. discriminate.
      * clear B Hs P. induction es as [|e es IH]; [inversion X|]. cbn [traverse].
        assert (IH' : Exists (fun e0 => ~ positive_definite (cauchy_green e0)) es -> traverse (eps_to_B1 B0) es = Err LinAlgError).
        { intros Y. apply IH; auto. intros; apply L; right; auto. }
        destruct (classic (positive_definite (cauchy_green e))) as [Q|Q].
        -- inversion X; subst; [contradiction|]. rewrite <- (L e (or_introl eq_refl)) in Q.
           destruct (eps_to_B1_ok B0 e Q) as (Be & ->). cbn [bind]. rewrite IH'; auto.
        -- rewrite <- (L e (or_introl eq_refl)) in Q. unfold eps_to_B1. rewrite (cholesky_err _ Q). reflexivity.
  - right; left. apply forallb_false in B. destruct B as (e & He & E). split.
    + apply Exists_exists. exists e. split; auto. apply not_psd in E. rewrite (L e He) in E. auto.
    + destruct (Nat.ltb _ 3); reflexivity.
Qed.
(** Documented exception type refuted: one infeasible element. *)
Lemma pC21_documented_exception_refuted : exists B0 e, symmetric e /\
  has_negative_direction (cauchy_green e) /\ epsilon_to_b B0 [e] = Err IndexError.
Proof.
  set (e := M3 (V3 (-1) 0 0) (V3 0 0 0) (V3 0 0 0)).
  assert (N : has_negative_direction (cauchy_green e)) by (exists (V3 1 0 0); unfold quad, e, cauchy_green; vunf; lra).
  exists mI, e. split; [reflexivity|]. split; auto.
  destruct (pC21_outcomes mI [e]) as [(H & _)|[(_ & H)|(H & _)]]; [repeat constructor| | |].
  - inversion H; subst. destruct N as (v & Hv). assert (v <> vzero).
    { intros ->. unfold quad in Hv. vunf. lra. } specialize (H2 v H0). lra.
  - exact H.
  - inversion H; contradiction.
Qed.
(** Both triangles: an upper-triangle-only perturbation of the strain is ignored
    (eigvalsh and cholesky read the lower triangle). *)
Lemma pC21_upper_triangle_ignored : forall B0 e e',
  lower_sym e = lower_sym e' -> epsilon_to_b B0 [e] = epsilon_to_b B0 [e'].
Proof.
  intros B0 e e' H.
  assert (E : lower_sym (metric e) = lower_sym (metric e')).
  { replace (lower_sym (metric e)) with (metric (lower_sym e)) by (unfold lower_sym, metric; clear; veq).
    replace (lower_sym (metric e')) with (metric (lower_sym e')) by (unfold lower_sym, metric; clear; veq). congruence. }
  unfold epsilon_to_b, no_negative_eig. cbn [forallb traverse]. unfold eps_to_B1, cholesky. rewrite E. reflexivity.
Qed.
Lemma xC20_strained : exists Bs, lab_strain_to_B mI [M3 (V3 (1/100) (1/200) 0) (V3 (1/200) 0 0) (V3 0 0 (-1/100))] [mI] = Ok Bs /\ length Bs = 1%nat.
Proof.
  unfold lab_strain_to_B. cbn [length Nat.eqb combine map fst snd].
  set (e := M3 (V3 (1/100) (1/200) 0) (V3 (1/200) 0 0) (V3 0 0 (-1/100))).
  replace (crystal_strain mI e) with e by (unfold crystal_strain, e; vext; vunf; ring).
  destruct (pC21_outcomes mI [e]) as [(_ & Bs & E & L)|[(X & _)|(_ & X & _)]]; [repeat constructor|exists Bs; auto| |].
  - exfalso. inversion X; subst; [|inversion H0]. destruct H0 as ([x y z] & Hv). unfold quad, cauchy_green, e in Hv. vunf.
    pose proof (sq_nn x). pose proof (sq_nn y). pose proof (sq_nn z). pose proof (sq_nn (x+y)). nra.
  - exfalso. inversion X; subst; [|inversion H0]. apply H0. intros [x y z] Hv. unfold quad, cauchy_green, e. 
    assert (N : 0 < x*x + y*y + z*z).
    { destruct (normsq_nonneg (V3 x y z)) as [Q|Q]; [unfold normsq, dot in Q; simpl in Q; lra|]. symmetry in Q. apply normsq_0 in Q. contradiction. }
    vunf. pose proof (sq_nn x). pose proof (sq_nn y). pose proof (sq_nn z). pose proof (sq_nn (x+y)). nra.
Qed.
