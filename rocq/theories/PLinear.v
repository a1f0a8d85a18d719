(** * C103: the picture is proportional to the factors it is made from. *)
From Verif Require Import Vec MMotion MLaue MMesh MScattering MStrain MBeam MPolycrystal SPolycrystal MDetector SDetector MRender SRender SPassenger SLinear.
From Verif Require Import PMesh PPolycrystal PDetector PDetector2 PRender PRender2 PJoin2 PPass PPass2.
From Coq Require Import FunctionalExtensionality String.
Open Scope list_scope. Open Scope R_scope.
Local Notation len := List.length.

(** ** Multiplying by a positive number *)
Local Ltac cases := repeat (match goal with
  | |- context [Req_EM_T ?a ?b] => destruct (Req_EM_T a b)
  | |- context [Rltb ?a ?b] => let E := fresh in destruct (Rltb a b) eqn:E
  end).
Lemma Rltb_iff' a b : Rltb a b = true <-> a < b.
Proof. unfold Rltb. destruct (Rlt_dec a b); split; intros; try discriminate; auto; lra. Qed.
Lemma Rltb_pos c a : 0 < c -> Rltb 0 (c * a) = Rltb 0 a.
Proof.
  intros H. destruct (Rltb 0 a) eqn:E.
  - apply Rltb_iff' in E. apply Rltb_iff'. now apply Rmult_lt_0_compat.
  - destruct (Rltb 0 (c * a)) eqn:F; auto. apply Rltb_iff' in F. assert (0 < a). { apply Rmult_lt_reg_l with c; lra. } apply Rltb_iff' in H0. congruence.
Qed.
Lemma Rltb_neg c a : 0 < c -> Rltb (c * a) 0 = Rltb a 0.
Proof.
  intros H. destruct (Rltb a 0) eqn:E.
  - apply Rltb_iff' in E. apply Rltb_iff'. assert (c * a < c * 0) by now apply Rmult_lt_compat_l. lra.
  - destruct (Rltb (c * a) 0) eqn:F; auto. apply Rltb_iff' in F. assert (a < 0). { apply Rmult_lt_reg_l with c; lra. } apply Rltb_iff' in H0. congruence.
Qed.
Lemma Req_pos {A} c a (x y : A) : 0 < c -> (if Req_EM_T (c * a) 0 then x else y) = (if Req_EM_T a 0 then x else y).
Proof.
  intros H. destruct (Req_EM_T a 0) as [->|N], (Req_EM_T (c * _) 0) as [E|E]; auto.
  - exfalso. apply E. ring.
  - exfalso. apply Rmult_integral in E as [E|E]; lra.
Qed.
Definition tm (c : R) (x : num) : num := nmul (Fin c) x.
Lemma tm_mul_l c x y : 0 < c -> nmul (tm c x) y = tm c (nmul x y).
Proof.
  intros H. assert (P : Rltb 0 c = true) by now apply Rltb_iff'.
  assert (Q : Rltb c 0 = false) by (destruct (Rltb c 0) eqn:E; auto; apply Rltb_iff' in E; lra).
  assert (Z : forall A (u v : A), (if Req_EM_T c 0 then u else v) = v) by (intros; destruct (Req_EM_T c 0); [lra|auto]).
  unfold tm. destruct x as [a| | |], y as [b| | |]; cbn; rewrite ?Z, ?P, ?Q; cbn; rewrite ?Rltb_pos, ?Rltb_neg, ?Req_pos by assumption; cases; cbn; rewrite ?Z, ?P, ?Q; cbn; auto; f_equal; ring.
Qed.
Lemma nmul_comm' x y : nmul x y = nmul y x.
Proof. destruct x, y; cbn; auto. f_equal; ring. Qed.
Lemma tm_mul_r c x y : 0 < c -> nmul x (tm c y) = tm c (nmul x y).
Proof. intros H. rewrite nmul_comm', tm_mul_l by assumption. now rewrite nmul_comm' with (x := y). Qed.
Lemma tm_add c x y : 0 < c -> nadd (tm c x) (tm c y) = tm c (nadd x y).
Proof.
  intros H. assert (P : Rltb 0 c = true) by now apply Rltb_iff'.
  assert (Q : Rltb c 0 = false) by (destruct (Rltb c 0) eqn:E; auto; apply Rltb_iff' in E; lra).
  assert (Z : forall A (u v : A), (if Req_EM_T c 0 then u else v) = v) by (intros; destruct (Req_EM_T c 0); [lra|auto]).
  unfold tm. destruct x as [a| | |], y as [b| | |]; unfold nadd; cbn; rewrite ?Z, ?P, ?Q; cbn; auto. f_equal; ring.
Qed.
Lemma tm_zero c : tm c (Fin 0) = Fin 0.
Proof. unfold tm. cbn. f_equal. ring. Qed.
Lemma tm_one x : tm 1 x = x.
Proof. apply nmul_1_l. Qed.
Lemma tm_nan c : tm c NaN = NaN.
Proof. reflexivity. Qed.
Lemma tm_tm a b x : 0 < a -> tm a (tm b x) = tm (a * b) x.
Proof. intros H. change (tm b x) with (nmul (Fin b) x). rewrite <- tm_mul_l by assumption. reflexivity. Qed.
Lemma tm_sum c l : 0 < c -> nsum (map (tm c) l) = tm c (nsum l).
Proof. intros H. induction l as [|x xs IH]; cbn [map]; [now rewrite tm_zero|]. unfold nsum in *. cbn [fold_right]. now rewrite IH, tm_add. Qed.

(** ** Images *)
Definition scale3 (c : R) (im : frames3) : frames3 := Fr (f_n im) (f_h im) (f_w im) (fun f i j => tm c (f_at im f i j)).
Definition sdep (c : R) (d : deposit) : deposit := let '(f, i, j, v) := d in (f, i, j, tm c v).
Lemma zeros_scale c n h w : zeros3 n h w = scale3 c (zeros3 n h w).
Proof. unfold zeros3, scale3. cbn [f_n f_h f_w f_at]. f_equal. do 3 (apply functional_extensionality; intros ?). now rewrite tm_zero. Qed.
Definition splaced (c : R) (d : nat * nat * nat * num) := let '(f, i, j, v) := d in (f, i, j, tm c v).
Lemma place_scale c n h w d : place n h w (sdep c d) = mapr (splaced c) (place n h w d).
Proof. destruct d as [[[f i] j] v]. cbn. destruct (wrap n f), (wrap h i), (wrap w j); reflexivity. Qed.
Lemma traverse_mapr {A B C} (f : A -> result B) (g : B -> C) l : traverse (fun x => mapr g (f x)) l = mapr (map g) (traverse f l).
Proof.
  induction l as [|x xs IH]; cbn; auto. destruct (f x); cbn; auto. rewrite IH.
  match goal with |- bind (mapr _ ?t) _ = mapr _ (bind ?t _) => destruct t end; reflexivity.
Qed.
Lemma index_put_scale c im ds : 0 < c -> index_put (scale3 c im) (map (sdep c) ds) = mapr (scale3 c) (index_put im ds).
Proof.
  intros H. unfold index_put. cbn [f_n f_h f_w scale3]. rewrite traverse_map.
  rewrite (traverse_ext _ (fun x => mapr (splaced c) (place (f_n im) (f_h im) (f_w im) x))) by (intros; apply place_scale).
  rewrite traverse_mapr. destruct (traverse _ ds) as [ps|]; cbn [mapr bind]; auto. unfold scale3. cbn [f_n f_h f_w f_at]. f_equal. f_equal.
  do 3 (apply functional_extensionality; intros ?). rewrite PPass.filter_map, map_map.
  rewrite (filter_same (fun y => at_pixel x x0 x1 (splaced c y)) (at_pixel x x0 x1)) by (intros [[[? ?] ?] ?]; reflexivity).
  rewrite (map_ext (fun y => snd (splaced c y)) (fun y => tm c (snd y))) by (intros [[[? ?] ?] ?]; reflexivity).
  rewrite <- (map_map snd (tm c)), tm_sum, tm_add by assumption. reflexivity.
Qed.
Lemma conv3_scale c k im : 0 < c -> conv3 k (scale3 c im) = scale3 c (conv3 k im).
Proof.
  intros H. unfold conv3, scale3. cbn [f_n f_h f_w f_at]. f_equal. do 3 (apply functional_extensionality; intros ?).
  unfold conv2. rewrite <- tm_sum, map_map by assumption. f_equal. apply map_ext. intros ab. rewrite <- tm_mul_l by assumption. f_equal.
  unfold padded. destruct (_ && _)%bool; auto. now rewrite tm_zero.
Qed.

(** ** Rows with a multiplied column *)
Section Rows.
Variables (c v : R) (p : nat).
Hypothesis c_pos : 0 < c.
Hypothesis v_pos : 0 < v.
Hypothesis p_free : p = 5%nat \/ p = 19%nat \/ p = 20%nat \/ p = 21%nat.
(** Column j of the new row. *)
Definition act (j : nat) : R := if Nat.eqb j 29 then c else if Nat.eqb j 21 then v else if Nat.eqb j p then c else 1.
Fixpoint scl (j : nat) (r : list num) : list num :=
  match r with [] => [] | x :: xs => tm (act j) x :: scl (S j) xs end.
Lemma scl_nth r : forall i j, nth j (scl i r) NaN = tm (act (i + j)) (nth j r NaN).
Proof.
  induction r as [|x xs IH]; intros i [|j]; cbn [scl nth]; auto.
  - now rewrite Nat.add_0_r.
  - rewrite IH. now rewrite Nat.add_succ_comm.
Qed.
Lemma scl_error r : forall i j, nth_error (scl i r) j = option_map (tm (act (i + j))) (nth_error r j).
Proof.
  induction r as [|x xs IH]; intros i [|j]; cbn [scl nth_error option_map]; auto.
  - now rewrite Nat.add_0_r.
  - rewrite IH. now rewrite Nat.add_succ_comm.
Qed.
Lemma scl_len r : forall i, len (scl i r) = len r.
Proof. induction r; intros; cbn; auto. Qed.
Lemma scl_app r s : forall i, scl i (r ++ s) = scl i r ++ scl (i + len r) s.
Proof. induction r as [|x xs IH]; intros i; cbn; [now rewrite Nat.add_0_r|]. f_equal. rewrite IH. now rewrite Nat.add_succ_comm. Qed.
Definition sr (r : list num) : list num := scl 0 r.
Lemma ncol_sr r j : ncol (sr r) j = tm (act j) (ncol r j).
Proof. unfold ncol, sr. apply scl_nth. Qed.
Lemma act_1 j : In j [0; 6; 13; 14; 15; 16; 17; 18; 23; 25; 26; 27; 28]%nat -> act j = 1.
Proof. intros H. unfold act. cbn in H. intuition subst; cbn; auto. Qed.
Lemma ncol_same r j : In j [0; 6; 13; 14; 15; 16; 17; 18; 23; 25; 26; 27; 28]%nat -> ncol (sr r) j = ncol r j.
Proof. intros H. rewrite ncol_sr, act_1 by assumption. apply tm_one. Qed.
Local Ltac rd := cbn; tauto.
Lemma fcol_same r j : In j [0; 6; 13; 14; 15; 16; 17; 18; 23; 25; 26; 27; 28]%nat -> fcol (sr r) j = fcol r j.
Proof. intros H. unfold fcol. now rewrite ncol_same. Qed.
Lemma pos_z_sr d r : pos_z d (sr r) = pos_z d r.
Proof. unfold pos_z. rewrite fcol_same by rd. auto. Qed.
Lemma pos_y_sr d r : pos_y d (sr r) = pos_y d r.
Proof. unfold pos_y. rewrite fcol_same by rd. auto. Qed.
Lemma frame_sr r : fcol (sr r) 28 = fcol r 28.
Proof. apply fcol_same. rd. Qed.
Lemma strength_sr r : peak_intensity (sr r) = tm (c * v) (peak_intensity r).
Proof. unfold peak_intensity. rewrite !ncol_sr. change (act 29) with c; change (act 21) with v. rewrite tm_mul_l, tm_mul_r, tm_tm by assumption. reflexivity. Qed.
Lemma first_zero_sr z d r : first_zero z d (sr r) = first_zero z d r.
Proof. unfold first_zero. rewrite !ncol_same by rd. auto. Qed.
Lemma airy_memory_sr z d r : airy_memory z d (sr r) = airy_memory z d r.
Proof. unfold airy_memory. now rewrite first_zero_sr. Qed.
Lemma cv_pos : 0 < c * v.
Proof. now apply Rmult_lt_0_compat. Qed.

Lemma bilinear_scale a h w f zc yc x : 0 < a -> bilinear h w f zc yc (tm a x) = map (sdep a) (bilinear h w f zc yc x).
Proof.
  intros H. unfold bilinear. rewrite !tm_mul_l by assumption.
  set (l := [(f, Int_part zc, Int_part yc, nmul x (Fin ((1 - (zc - IZR (Int_part zc))) * (1 - (yc - IZR (Int_part yc))))));
             (f, Int_part zc, (Int_part yc + 1)%Z, nmul x (Fin ((1 - (zc - IZR (Int_part zc))) * (yc - IZR (Int_part yc)))));
             (f, (Int_part zc + 1)%Z, Int_part yc, nmul x (Fin ((zc - IZR (Int_part zc)) * (1 - (yc - IZR (Int_part yc))))));
             (f, (Int_part zc + 1)%Z, (Int_part yc + 1)%Z, nmul x (Fin ((zc - IZR (Int_part zc)) * (yc - IZR (Int_part yc)))))]).
  match goal with |- filter ?q ?m = _ => change m with (map (sdep a) l) end.
  rewrite PPass.filter_map. f_equal.
Qed.
Lemma concat_map_scale {A B} (g : A -> list B) (h : B -> B) l : List.concat (map (fun x => map h (g x)) l) = map h (List.concat (map g l)).
Proof. rewrite concat_map, map_map. reflexivity. Qed.
Lemma kernel_deposits_scale a h w f zc yc k : 0 < a ->
  kernel_deposits h w f zc yc (Ker (k_n k) (fun x y => tm a (k_at k x y))) = map (sdep a) (kernel_deposits h w f zc yc k).
Proof.
  intros H. unfold kernel_deposits. cbn [k_n k_at]. rewrite <- concat_map_scale. f_equal. apply map_ext. intros ab. now apply bilinear_scale.
Qed.
Lemma kscale_scale a s k : 0 < a -> kscale (tm a s) k = Ker (k_n (kscale s k)) (fun x y => tm a (k_at (kscale s k) x y)).
Proof. intros H. unfold kscale. cbn. f_equal. do 2 (apply functional_extensionality; intros ?). now apply tm_mul_r. Qed.
Lemma airy_batch_sr z j1 d psf frames im rows :
  airy_batch z j1 d psf frames (scale3 (c * v) im) (map sr rows) = mapr (scale3 (c * v)) (airy_batch z j1 d psf frames im rows).
Proof.
  pose proof cv_pos as P. unfold airy_batch, airy_kernels. rewrite !map_map.
  rewrite (map_ext (fun r => first_zero z d (sr r)) (first_zero z d)) by apply first_zero_sr.
  destruct (airy_radius d _) as [radius|e]; cbn [bind]; auto.
  match goal with |- context [let* ks := ?m in _] => destruct m as [ks|e] end; cbn [bind]; auto.
  rewrite <- index_put_scale by assumption. f_equal. rewrite <- concat_map_scale. f_equal. apply map_ext. intros f. rewrite <- concat_map_scale. f_equal.
  rewrite combine_map_l, !combine_map_l, !map_map. cbn [fst snd].
  rewrite (map_ext (fun x => kscale (peak_intensity (sr (fst x))) (snd x))
    (fun rk => Ker (k_n (kscale (peak_intensity (fst rk)) (snd rk))) (fun x y => tm (c * v) (k_at (kscale (peak_intensity (fst rk)) (snd rk)) x y))))
    by (intros; rewrite strength_sr; now apply kscale_scale).
  rewrite <- (map_map (fun rk => kscale (peak_intensity (fst rk)) (snd rk)) (fun k => Ker (k_n k) (fun x y => tm (c * v) (k_at k x y)))).
  rewrite PPass.combine_map_r, map_map. cbn [fst snd].
  rewrite PPass.filter_map, map_map. cbn [fst snd].
  rewrite (filter_same (fun x => Reqb (fcol (sr (fst x)) 28) (INR f)) (fun rk => Reqb (fcol (fst rk) 28) (INR f))) by (intros; now rewrite frame_sr).
  apply map_ext. intros x. rewrite pos_z_sr, pos_y_sr. now apply kernel_deposits_scale.
Qed.
Lemma airy_loop_sr z j1 d psf frames bs : forall im, airy_loop z j1 d psf frames (scale3 (c * v) im) (map (map sr) bs) = mapr (scale3 (c * v)) (airy_loop z j1 d psf frames im bs).
Proof.
  induction bs as [|x xs IH]; intros im; cbn; auto. rewrite airy_batch_sr. destruct (airy_batch z j1 d psf frames im x); cbn; auto.
Qed.
Lemma render_airy_sr z j1 srt d av rows frames : render_airy z j1 srt d av (map sr rows) frames = mapr (scale3 (c * v)) (render_airy z j1 srt d av rows frames).
Proof.
  destruct (list_eq_dec Nat.eq_dec [] (map (fun _ => 0%nat) rows)) as [E|E].
  { destruct rows; [|discriminate]. cbn [map render_airy mapr]. now rewrite <- zeros_scale. }
  assert (N : rows <> []) by (intros ->; apply E; reflexivity).
  assert (N' : map sr rows <> []) by (intros C; apply map_eq_nil in C; contradiction).
  rewrite !render_airy_body by assumption.
  destruct (psf_kernel d) as [psf|]; cbn [bind mapr]; auto. rewrite map_map.
  rewrite (map_ext (fun r => airy_memory z d (sr r)) (airy_memory z d)) by apply airy_memory_sr.
  rewrite gather_map. destruct (gather rows _) as [sorted|]; cbn [mapr bind]; auto.
  rewrite map_length, airy_batches_map by apply airy_memory_sr.
  destruct (airy_batches _ av sorted _) as [bs|]; cbn [option_map]; auto.
  rewrite (zeros_scale (c * v)) at 1. rewrite airy_loop_sr. destruct (airy_loop _ _ _ _ _ _ bs); cbn [bind mapr]; auto.
  rewrite (conv3_scale _ _ _ cv_pos). reflexivity.
Qed.

Lemma macro_deposits_sr e d bm me m k r : macro_deposits e d bm me m k (sr r) = mapr (map (sdep c)) (macro_deposits e d bm me m k r).
Proof.
  unfold macro_deposits, fvec. cbn [Nat.add].
  rewrite !fcol_same by rd. rewrite ncol_sr. cbn [act Nat.eqb].
  destruct (nth_error _ _); auto.
  match goal with |- bind ?x _ = mapr _ (bind ?x _) => destruct x end; cbn [bind mapr]; auto.
  match goal with |- bind ?x _ = mapr _ (bind ?x _) => destruct x as [it|] end; cbn [bind mapr]; auto.
  destruct it; auto.
  all: match goal with |- bind ?x _ = mapr _ (bind ?x _) => destruct x end; cbn [bind mapr]; auto.
  all: destruct (projected_box _ _ _ _) as [[[[r0 r1] c0] c1]|]; auto.
  all: match goal with |- bind ?x _ = mapr _ (bind ?x _) => destruct x end; cbn [bind mapr]; auto.
  all: unfold act; cbn [Nat.eqb].
  all: destruct (ncol r 29) as [i| | |]; unfold tm; cbn [nmul]; try (destruct (Req_EM_T c 0); cbn; auto; fail); auto.
  all: try (destruct (Req_EM_T c 0); unfold nsign_inf; try destruct (Rltb _ _); reflexivity).
  all: cbn [mapr]; f_equal; rewrite map_map; apply map_ext; intros ab; cbn [sdep]; f_equal; exact (tm_mul_l c (Fin i) _ c_pos).
Qed.
Lemma render_macro_sr e d bm me m rows frames : render_macro e d bm me m (map sr rows) frames = mapr (scale3 c) (render_macro e d bm me m rows frames).
Proof.
  unfold render_macro. destruct rows as [|r0 rs]. { cbn [map mapr]. now rewrite <- zeros_scale. }
  cbn [map]. change (sr r0 :: map sr rs) with (map sr (r0 :: rs)). set (rows := r0 :: rs).
  destruct (psf_kernel d) as [psf|]; cbn [bind mapr]; auto.
  rewrite map_length, PPass.combine_map_r, traverse_map. cbn [fst snd].
  rewrite (traverse_ext (fun x => macro_deposits e d bm me m (fst x) (sr (snd x))) (fun kr => mapr (map (sdep c)) (macro_deposits e d bm me m (fst kr) (snd kr))))
    by (intros; apply macro_deposits_sr).
  rewrite traverse_mapr.
  destruct (traverse _ (combine _ rows)) as [deps|]; cbn [bind mapr]; auto.
  rewrite traverse_map.
  rewrite (traverse_ext (fun x => match wrap frames (ztrunc (fcol (sr x) 28)) with Some _ => Ok tt | None => Err IndexError end)
    (fun r => match wrap frames (ztrunc (fcol r 28)) with Some _ => Ok tt | None => Err IndexError end)) by (intros; now rewrite frame_sr).
  destruct (traverse _ rows); cbn [bind mapr]; auto.
  rewrite (zeros_scale c) at 1. rewrite <- concat_map, index_put_scale by assumption.
  destruct (index_put _ _) as [im|]; cbn [bind mapr]; auto.
  f_equal. unfold scale3 at 2. cbn [f_n f_h f_w f_at]. f_equal. do 3 (apply functional_extensionality; intros ?). rewrite existsb_map.
  rewrite (existsb_same (fun y => match wrap frames (ztrunc (fcol (sr y) 28)) with Some g => Nat.eqb x g | None => false end)
    (fun r => match wrap frames (ztrunc (fcol r 28)) with Some g => Nat.eqb x g | None => false end)) by (intros; now rewrite frame_sr).
  destruct (existsb _ _); [|now rewrite tm_zero]. rewrite conv3_scale by assumption. reflexivity.
Qed.

(** ** Projection *)
Lemma row_nvec_sr r j : In j [13; 16]%nat -> row_nvec (sr r) j = row_nvec r j.
Proof. intros [<-|[<-|[]]]; unfold row_nvec; cbn [Nat.add]; rewrite !ncol_same by rd; reflexivity. Qed.
End Rows.

Definition enabled (d : detector) (p : nat) : Prop :=
  (p = 5%nat /\ d_structure d = true) \/ (p = 20%nat /\ d_polarization d = true) \/ (p = 19%nat /\ d_lorentz d = true).
Section Project.
Variables (c v : R) (p : nat) (d : detector).
Hypothesis c_pos : 0 < c.
Hypothesis v_pos : 0 < v.
Hypothesis p_ok : enabled d p \/ (c = 1 /\ p = 21%nat).
Local Notation sr := (sr c v p).
Lemma p_free : p = 5%nat \/ p = 19%nat \/ p = 20%nat \/ p = 21%nat.
Proof. unfold enabled in p_ok. tauto. Qed.
Lemma intensity_sr r : intensity d (sr r) = tm c (intensity d r).
Proof.
  unfold intensity. rewrite !ncol_sr by apply p_free.
  destruct p_ok as [[[-> E]|[[-> E]|[-> E]]]|[-> ->]]; try rewrite E; unfold act; cbn [Nat.eqb]; rewrite ?tm_one;
  destruct (d_structure d), (d_polarization d), (d_lorentz d); rewrite ?tm_mul_l, ?tm_mul_r, ?tm_mul_l by assumption; try rewrite !tm_one; try discriminate; reflexivity.
Qed.
Lemma act_high j : (25 <= j)%nat -> j <> 29%nat -> act c v p j = 1.
Proof.
  intros H N. unfold act. destruct (Nat.eqb_spec j 29); [contradiction|]. destruct (Nat.eqb_spec j 21); [lia|].
  destruct (Nat.eqb_spec j p) as [->|]; auto. destruct p_free as [->|[->|[->| ->] ] ]; lia.
Qed.
Lemma extend_sr z frames r : len r = 25%nat -> extend z d frames (sr r) = sr (extend z d frames r).
Proof.
  intros L. rewrite !extend_eq by (unfold PLinear.sr; rewrite ?scl_len; lia).
  rewrite !(row_nvec_sr c v p p_free) by (cbn; tauto). rewrite intensity_sr, (ncol_same c v p p_free) by (cbn; tauto).
  destruct (get_intersection _ _ _ _) as [[zd yd] a]. unfold PLinear.sr. rewrite scl_app, L. cbn [Nat.add scl].
  rewrite !act_high by lia. rewrite !tm_one. reflexivity.
Qed.
Lemma tm_finite x : is_finite (tm c x) = is_finite x.
Proof. destruct x; cbn; auto; destruct (Req_EM_T c 0); try lra; unfold nsign_inf; destruct (Rltb _ _); reflexivity. Qed.
Lemma tm_lt x : is_finite x = true -> nlt (Fin 0) (tm c x) = nlt (Fin 0) x.
Proof. destruct x; intros H; try discriminate. cbn. now apply Rltb_pos. Qed.
Lemma keepb_sr z frames r : len r = 25%nat -> keepb z d frames (sr r) = keepb z d frames r.
Proof.
  intros L. destruct (get_intersection z d (row_nvec r 13) (row_nvec r 16)) as [[zd yd] a] eqn:E.
  rewrite (keepb_fresh z d frames r zd yd a L E).
  rewrite (keepb_fresh z d frames (sr r) zd yd a); [|unfold PLinear.sr; now rewrite scl_len|now rewrite !(row_nvec_sr c v p p_free) by (cbn; tauto)].
  rewrite intensity_sr, tm_finite. destruct (is_finite (intensity d r)) eqn:F; auto. now rewrite tm_lt.
Qed.
Lemma project_sr z frames pd pd' out : fresh pd -> fresh pd' -> pd_peaks pd' = map sr (pd_peaks pd) -> project z d pd frames = Ok out ->
  exists out', project z d pd' frames = Ok out' /\ pd_peaks out' = map sr (pd_peaks out) /\
    pd_columns out = column_names ++ new_columns /\ pd_columns out' = column_names ++ new_columns /\
    pd_mesh out = pd_mesh pd /\ pd_motion out = pd_motion pd /\ pd_beam out = pd_beam pd /\
    pd_mesh out' = pd_mesh pd' /\ pd_motion out' = pd_motion pd' /\ pd_beam out' = pd_beam pd'.
Proof.
  intros [C F] [C' F'] A P.
  destruct (project_ok z d pd' frames) as (out' & P'); [eapply Forall_impl; [|exact F']; cbn; intros; lia|].
  exists out'. split; auto.
  destruct (project_inv _ _ _ _ _ P) as (R & Cl & _ & _ & _ & M1 & M2 & M3).
  destruct (project_inv _ _ _ _ _ P') as (R' & Cl' & _ & _ & _ & M1' & M2' & M3').
  rewrite Cl, Cl', C, C'. repeat split; auto. rewrite R, R', A, PPass.filter_map, !map_map. clear - F c_pos p_ok.
  induction F as [|r rs L F IH]; cbn [filter map]; auto. rewrite keepb_sr by assumption.
  destruct (keepb z d frames r); cbn [map]; rewrite IH by assumption; auto. f_equal. now apply extend_sr.
Qed.
End Project.

(** ** Tables *)
Definition factor_column (s : string) : option nat :=
  if String.eqb s "structure_factors" then Some 5%nat else if String.eqb s "polarization_factors" then Some 20%nat
  else if String.eqb s "lorentz_factors" then Some 19%nat else if String.eqb s "volumes" then Some 21%nat else None.
Lemma list_ext {A} (l : list A) : forall l', len l = len l' -> (forall j, (j < len l)%nat -> nth_error l j = nth_error l' j) -> l = l'.
Proof.
  induction l as [|x xs IH]; intros [|y ys] L H; try discriminate; auto. f_equal.
  - specialize (H 0%nat ltac:(cbn; lia)). cbn in H. congruence.
  - apply IH; [cbn in L; lia|]. intros j Hj. apply (H (S j)). cbn. lia.
Qed.
Lemma below25 (P : nat -> Prop) : P 0%nat -> P 1%nat -> P 2%nat -> P 3%nat -> P 4%nat -> P 5%nat -> P 6%nat -> P 7%nat -> P 8%nat -> P 9%nat ->
  P 10%nat -> P 11%nat -> P 12%nat -> P 13%nat -> P 14%nat -> P 15%nat -> P 16%nat -> P 17%nat -> P 18%nat -> P 19%nat ->
  P 20%nat -> P 21%nat -> P 22%nat -> P 23%nat -> P 24%nat -> forall j, (j < 25)%nat -> P j.
Proof. intros. do 25 (destruct j as [|j]; [assumption|]). lia. Qed.
Lemma below30 (P : nat -> Prop) : (forall j, (j < 25)%nat -> P j) -> P 25%nat -> P 26%nat -> P 27%nat -> P 28%nat -> P 29%nat -> forall j, (j < 30)%nat -> P j.
Proof. intros H A B C D E j J. destruct (lt_dec j 25); auto. assert (Q : j = 25%nat \/ j = 26%nat \/ j = 27%nat \/ j = 28%nat \/ j = 29%nat) by lia. destruct Q as [->|[->|[->|[->| ->] ] ] ]; auto. Qed.
Lemma rescaled_rows s p c v pd pd' : factor_column s = Some p -> fresh pd -> fresh pd' ->
  (if Nat.eqb p 21 then rescaled [s] v pd pd' /\ c = 1 else rescaled [s] c pd pd' /\ v = 1) -> pd_peaks pd' = map (sr c v p) (pd_peaks pd).
Proof.
  intros E [C F] [C' F'] R.
  assert (T : forall r r', len r = 25%nat -> len r' = 25%nat ->
    (forall t, field pd' r' t = if existsb (String.eqb t) [s] then option_map (nmul (Fin (if Nat.eqb p 21 then v else c))) (field pd r t) else field pd r t) ->
    (if Nat.eqb p 21 then c = 1 else v = 1) -> r' = sr c v p r).
  { intros r r' L L' H X. apply list_ext; [unfold sr; rewrite scl_len; congruence|]. rewrite L'. unfold sr.
    unfold field in H. rewrite C, C' in H.
    assert (Q : forall j t, index_of t column_names = Some j -> (if existsb (String.eqb t) [s] then if Nat.eqb p 21 then v else c else 1) = act c v p j ->
      nth_error r' j = nth_error (scl c v p 0 r) j).
    { intros j t Ij Ea. specialize (H t). rewrite Ij in H. rewrite H, scl_error. cbn [Nat.add]. rewrite <- Ea.
      destruct (existsb _ _); [reflexivity|]. destruct (nth_error r j); cbn [option_map]; [now rewrite tm_one|reflexivity]. }
    unfold factor_column in E.
    destruct (String.eqb_spec s "structure_factors") as [->|]; [|destruct (String.eqb_spec s "polarization_factors") as [->|];
      [|destruct (String.eqb_spec s "lorentz_factors") as [->|]; [|destruct (String.eqb_spec s "volumes") as [->|]; [|discriminate] ] ] ];
    injection E as <-; cbn in X; subst;
    apply below25; match goal with |- nth_error r' ?k = _ => apply (Q k (nth k column_names ""%string)); reflexivity end. }
  assert (R1 : rescaled [s] (if Nat.eqb p 21 then v else c) pd pd') by (destruct (Nat.eqb p 21); apply R).
  assert (R2 : if Nat.eqb p 21 then c = 1 else v = 1) by (destruct (Nat.eqb p 21); apply R).
  clear R. unfold rescaled in R1. revert F F' R1. generalize (pd_peaks pd) (pd_peaks pd'). intros l l' F F' R1.
  induction R1 as [|r r' l l' H R1 IH]; auto. inversion F; subst. inversion F'; subst. cbn [map]. f_equal; auto.
Qed.
Lemma rows_rescaled s p c v out out' S a : factor_column s = Some p -> pd_columns out = column_names ++ new_columns -> pd_columns out' = column_names ++ new_columns ->
  (if Nat.eqb p 21 then S = [s] /\ c = 1 /\ a = v else S = [s; "intensity_factors"%string] /\ v = 1 /\ a = c) ->
  pd_peaks out' = map (sr c v p) (pd_peaks out) -> rescaled S a out out'.
Proof.
  intros E C C' X R. unfold rescaled. rewrite R. clear R.
  assert (T : forall r t, field out' (sr c v p r) t = if existsb (String.eqb t) S then option_map (nmul (Fin a)) (field out r t) else field out r t).
  { intros r t. unfold field. rewrite C, C'. destruct (index_of t (column_names ++ new_columns)) as [j|] eqn:Ij; [|destruct (existsb _ _); reflexivity].
    apply index_of_nth in Ij. unfold sr. rewrite scl_error. cbn [Nat.add].
    assert (Q : (if existsb (String.eqb t) S then a else 1) = act c v p j).
    { assert (J : (j < 30)%nat) by (apply nth_error_lt' in Ij; exact Ij).
      revert j J Ij. unfold factor_column in E.
      destruct (String.eqb_spec s "structure_factors") as [->|]; [|destruct (String.eqb_spec s "polarization_factors") as [->|];
        [|destruct (String.eqb_spec s "lorentz_factors") as [->|]; [|destruct (String.eqb_spec s "volumes") as [->|]; [|discriminate] ] ] ];
      injection E as <-; cbn [Nat.eqb] in X; destruct X as (-> & -> & ->);
      (match goal with |- forall j, (j < 30)%nat -> @?P j => refine (below30 P _ _ _ _ _ _); [refine (below25 P _ _ _ _ _ _ _ _ _ _ _ _ _ _ _ _ _ _ _ _ _ _ _ _ _)|..] end; cbv beta; intros Ij; cbn [nth_error app column_names new_columns] in Ij; assert (Et := f_equal (fun o => match o with Some x => x | None => ""%string end) Ij); cbn in Et; subst t; reflexivity). }
    rewrite <- Q. destruct (existsb _ _); [reflexivity|]. destruct (nth_error r j); cbn [option_map]; [now rewrite tm_one|reflexivity]. }
  induction (pd_peaks out); constructor; auto.
Qed.
