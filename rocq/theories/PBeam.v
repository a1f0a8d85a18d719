(** * Proofs about the beam model. *)
From Verif Require Import Vec MMotion MLaue MMesh MScattering MBeam Spec SBeam.
From Verif Require Import PMotion PLaue PMesh PScattering PStrain.
From Coq Require Import Classical.
Open Scope R_scope.

(** ** rounding *)
Lemma Int_part_eq r z : IZR z <= r < IZR z + 1 -> Int_part r = z.
Proof.
  intros H. unfold Int_part. rewrite <- (tech_up r (z + 1)); [lia| |]; rewrite plus_IZR; lra.
Qed.
Lemma rint_err x : Rabs (IZR (rint x) - x) <= 1/2.
Proof.
  unfold rint. destruct (base_Int_part x) as [H1 H2]. unfold frac_part.
  destruct (Rlt_dec _ _) as [L|L]; [apply Rabs_le; lra|].
  destruct (Rlt_dec _ _) as [L'|L']; [rewrite plus_IZR; apply Rabs_le; lra|].
  destruct (Z.even _); [|rewrite plus_IZR]; apply Rabs_le; lra.
Qed.
Lemma round6_err x : Rabs (round6 x - x) <= / (2 * 10^6).
Proof.
  unfold round6. pose proof (rint_err (x * 10^6)) as H.
  replace (IZR (rint (x * 10^6)) / 10^6 - x) with ((IZR (rint (x * 10^6)) - x * 10^6) * / 10^6) by field.
  rewrite Rabs_mult, (Rabs_right (/ 10^6)) by (assert (0 < / 10^6) by (apply Rinv_0_lt_compat; lra); lra).
  assert (0 < / 10^6) by (apply Rinv_0_lt_compat; lra). 
  replace (/ (2 * 10^6)) with (1/2 * / 10^6) by field. apply Rmult_le_compat_r; lra.
Qed.
Lemma abs_prod_le e x y : Rabs e <= y -> Rabs (e * x) <= y * Rabs x.
Proof. intros. rewrite Rabs_mult. apply Rmult_le_compat_r; auto. apply Rabs_pos. Qed.
Lemma hs_round_err h p : Rabs (hs_val (hs_round h) p - hs_val h p) <= rounding_at p.
Proof.
  destruct h as [[a b c] d], p as [x y z]. unfold hs_round, hs_val, rounding_at, dot. cbn [hs_n hs_d vx vy vz].
  pose proof (abs_prod_le _ x _ (round6_err a)). pose proof (abs_prod_le _ y _ (round6_err b)).
  pose proof (abs_prod_le _ z _ (round6_err c)). pose proof (round6_err d).
  set (k := / (2 * 10^6)) in *. clearbody k.
  replace (round6 a * x + round6 b * y + round6 c * z + round6 d - (a * x + b * y + c * z + d))
    with ((round6 a - a) * x + (round6 b - b) * y + (round6 c - c) * z + (round6 d - d)) by ring.
  eapply Rle_trans; [apply Rabs_triang|]. eapply Rle_trans; [apply Rplus_le_compat_r, Rabs_triang|].
  eapply Rle_trans; [apply Rplus_le_compat_r, Rplus_le_compat_r, Rabs_triang|]. lra.
Qed.

(** ** np.unique keeps the set of rows *)
Lemma lex_antisym h k : row_lt (hs_row h) (hs_row k) = false -> row_lt (hs_row k) (hs_row h) = false -> h = k.
Proof.
  destruct h as [[a b c] d], k as [[a' b' c'] d']. unfold hs_row. cbn [row_lt hs_n hs_d vx vy vz].
  repeat (match goal with |- context [Rlt_dec ?u ?v] => destruct (Rlt_dec u v) end); intros; try discriminate; try lra.
  all: assert (a = a') by lra; assert (b = b') by lra; assert (c = c') by lra; assert (d = d') by lra; congruence.
Qed.
Lemma insert_unique_In h k l : In h (insert_unique k l) <-> h = k \/ In h l.
Proof.
  induction l as [|j l IH]; cbn [insert_unique].
  - simpl. split; intros [|]; auto; tauto.
  - destruct (row_lt (hs_row k) (hs_row j)) eqn:E1; [simpl; split; intros [|[|]]; auto|].
    destruct (row_lt (hs_row j) (hs_row k)) eqn:E2.
    + simpl. rewrite IH. tauto.
    + pose proof (lex_antisym _ _ E1 E2). subst. simpl. split; intros; [tauto|]. intuition congruence.
Qed.
Lemma unique_In h l : In h (unique_rows l) <-> In h l.
Proof. induction l; simpl; [tauto|]. unfold unique_rows in *. cbn [fold_right]. rewrite insert_unique_In, IHl. intuition. Qed.
Lemma clean_In h l : In h (clean_halfspaces l) <-> exists e, In e l /\ h = hs_round e.
Proof. unfold clean_halfspaces. rewrite unique_In, in_map_iff. split; intros (e & H1 & H2); eauto. Qed.

(** ** C22 *)
Lemma vdiv_scale a s : vdiv a s = vscale (/ s) a.
Proof. unfold vdiv, vscale, Rdiv. f_equal; ring. Qed.
Lemma norm_unitize d : norm d <> 0 -> norm (vdiv d (norm d)) = 1.
Proof.
  intros H. rewrite vdiv_scale, norm_scale, Rabs_right.
  - field; auto.
  - pose proof (norm_nonneg d). assert (0 < / norm d) by (apply Rinv_0_lt_compat; lra). lra.
Qed.
Lemma make_beam_inv q vs dir w pol b : make_beam q vs dir w pol = Ok b ->
  w <> 0 /\ norm dir <> 0 /\ norm pol <> 0 /\
  exists eqs, qh_nvert q vs = Ok (length vs) /\ qh_eqs_QJ q vs = Ok eqs /\
  b = Beam (vdiv (vscale (2 * PI / w) dir) (norm dir)) w vs (mean_list vs) (clean_halfspaces eqs) (vdiv pol (norm pol)) /\
  Rabs (dot (b_polarization b) (b_wave_vector b)) <= / 10^8.
Proof.
  unfold make_beam, beam_vertex_state. destruct (Req_EM_T w 0); [discriminate|].
  destruct (qh_nvert q vs) as [n0|] eqn:E1; cbn [bind]; [|discriminate].
  destruct (Nat.eqb_spec (length vs) n0) as [E2|E2]; cbn [assert_ bind]; [|discriminate].
  destruct (qh_eqs_QJ q vs) as [eqs|] eqn:E3; cbn [bind]; [|discriminate].
  destruct (Req_EM_T (norm dir) 0); [discriminate|]. destruct (Req_EM_T (norm pol) 0); [discriminate|].
  destruct (Rleb _ _) eqn:E4; cbn [assert_ bind]; [|discriminate]. intros H. apply Rleb_true in E4.
  injection H as <-. repeat split; auto. exists eqs. subst. auto.
Qed.
Lemma wave_norm w dir : w <> 0 -> norm dir <> 0 ->
  norm (vdiv (vscale (2 * PI / w) dir) (norm dir)) = 2 * PI / Rabs w.
Proof.
  intros Hw Hd. rewrite vdiv_scale, !norm_scale, Rabs_inv, (Rabs_right (norm dir)) by (apply Rle_ge, norm_nonneg).
  unfold Rdiv. rewrite Rabs_mult, Rabs_inv, Rabs_right by (pose proof PI_RGT_0; lra).
  field. split; auto. now apply Rabs_no_R0.
Qed.
(** C22. Every constructed beam: |k| = 2 pi / wavelength, k along the given
    direction, unit polarization, nearly orthogonal to k. *)
Lemma pC22_beam_normalised : forall q vs dir w pol b, make_beam q vs dir w pol = Ok b -> 0 < w ->
  norm (b_wave_vector b) = 2 * PI / w /\
  (exists s, 0 < s /\ b_wave_vector b = vscale s dir) /\
  unit (b_polarization b) /\ (exists s, 0 < s /\ b_polarization b = vscale s pol) /\
  Rabs (dot (b_polarization b) (b_wave_vector b)) <= / 10^8 /\
  b_wavelength b = w /\ b_vertices b = vs.
Proof.
  intros q vs dir w pol b H Hw. destruct (make_beam_inv _ _ _ _ _ _ H) as (Nw & Nd & Np & eqs & _ & _ & E & Hd).
  rewrite E in *. cbn [b_wave_vector b_polarization b_wavelength b_vertices] in *.
  pose proof (norm_nonneg dir). pose proof (norm_nonneg pol).
  assert (0 < / norm dir) by (apply Rinv_0_lt_compat; lra). assert (0 < / norm pol) by (apply Rinv_0_lt_compat; lra).
  repeat split; auto.
  - rewrite wave_norm, Rabs_right; auto; lra.
  - exists (/ norm dir * (2 * PI / w)). split.
    + apply Rmult_lt_0_compat; auto. apply Rdiv_lt_0_compat; auto. pose proof PI_RGT_0; lra.
    + rewrite vdiv_scale. generalize (/ norm dir), (2 * PI / w). clear. intros; veq.
  - apply norm_unitize; auto.
  - exists (/ norm pol). split; auto. apply vdiv_scale.
Qed.
(** C22. Exactly which inputs are accepted, given that the hull routine accepts
    the vertices: the admitted misalignment of the polarization, as the cosine
    of its angle to the beam, is 1e-8*wavelength/(2 pi). *)
Lemma pC22_beam_accepts_iff : forall q vs dir w pol eqs,
  qh_nvert q vs = Ok (length vs) -> qh_eqs_QJ q vs = Ok eqs -> 0 < w ->
  ((exists b, make_beam q vs dir w pol = Ok b) <->
   dir <> vzero /\ pol <> vzero /\ Rabs (dot pol dir) <= / 10^8 * (w / (2 * PI)) * (norm pol * norm dir)).
Proof.
  intros q vs dir w pol eqs E1 E3 Hw.
  assert (NZ : forall v, norm v <> 0 <-> v <> vzero).
  { intros v. split; intros Hv C; apply Hv; [subst; unfold norm; rewrite (proj2 (normsq_0 vzero) eq_refl); apply sqrt_0|].
    apply normsq_0. rewrite <- norm_sq, C. ring. }
  assert (Q : norm dir <> 0 -> norm pol <> 0 ->
     (Rabs (dot (vdiv pol (norm pol)) (vdiv (vscale (2 * PI / w) dir) (norm dir))) <= / 10^8 <->
      Rabs (dot pol dir) <= / 10^8 * (w / (2 * PI)) * (norm pol * norm dir))).
  { intros Hd Hp. pose proof (norm_nonneg dir). pose proof (norm_nonneg pol). pose proof PI_RGT_0.
    replace (dot (vdiv pol (norm pol)) (vdiv (vscale (2 * PI / w) dir) (norm dir)))
      with (dot pol dir * (2 * PI / (w * (norm pol * norm dir))))
      by (rewrite !vdiv_scale; unfold dot, vscale; cbn [vx vy vz]; field; lra).
    assert (P : 0 < 2 * PI / (w * (norm pol * norm dir))).
    { apply Rdiv_lt_0_compat; [lra|]. repeat apply Rmult_lt_0_compat; lra. }
    rewrite Rabs_mult, (Rabs_right (2 * PI / _)) by lra. set (k := 2 * PI / _) in *.
    replace (/ 10^8 * (w / (2 * PI)) * (norm pol * norm dir)) with (/ 10^8 * / k)
      by (unfold k; field; lra).
    assert (0 < / k) by (apply Rinv_0_lt_compat; auto). split; intros Hx.
    - apply (Rmult_le_compat_r (/ k)) in Hx; [|lra]. rewrite Rmult_assoc, Rinv_r, Rmult_1_r in Hx by lra. auto.
    - apply (Rmult_le_compat_r k) in Hx; [|lra]. rewrite (Rmult_assoc (/ 10^8)), Rinv_l, Rmult_1_r in Hx by lra. auto. }
  split.
  - intros (b & H). destruct (make_beam_inv _ _ _ _ _ _ H) as (Nw & Nd & Np & eqs' & _ & _ & E & Hd).
    rewrite E in Hd. cbn [b_wave_vector b_polarization] in Hd. rewrite (NZ dir) in Nd. rewrite (NZ pol) in Np.
    repeat split; auto. apply Q; auto; now apply NZ.
  - intros (Nd & Np & Hd). apply NZ in Nd. apply NZ in Np. apply Q in Hd; auto.
    unfold make_beam, beam_vertex_state. destruct (Req_EM_T w 0); [lra|]. rewrite E1; cbn [bind].
    rewrite Nat.eqb_refl; cbn [assert_ bind]. rewrite E3; cbn [bind].
    destruct (Req_EM_T (norm dir) 0); [contradiction|]. destruct (Req_EM_T (norm pol) 0); [contradiction|].
    rewrite (proj2 (Rleb_true _ _) Hd); cbn [assert_ bind]. eauto.
Qed.
(** A hull routine answering the cube [-1,1]^3 for every point set (used in the
    non-vacuity examples with the eight cube corners). *)
Definition cube_hs : list halfspace :=
  [HS (V3 1 0 0) (-1); HS (V3 (-1) 0 0) (-1); HS (V3 0 1 0) (-1); HS (V3 0 (-1) 0) (-1);
   HS (V3 0 0 1) (-1); HS (V3 0 0 (-1)) (-1)].
Definition cube_pts : list vec :=
  [V3 1 1 1; V3 1 1 (-1); V3 1 (-1) 1; V3 1 (-1) (-1); V3 (-1) 1 1; V3 (-1) 1 (-1); V3 (-1) (-1) 1; V3 (-1) (-1) (-1)].
Definition cube_qhull : qhull := Qhull (fun l => Ok (length l)) (fun _ => Ok cube_hs) (fun _ => Ok cube_hs).
Lemma xC22_beam : exists b, make_beam cube_qhull cube_pts (V3 2 0 0) 1 (V3 0 3 0) = Ok b.
Proof.
  eapply (proj2 (pC22_beam_accepts_iff cube_qhull cube_pts (V3 2 0 0) 1 (V3 0 3 0) cube_hs eq_refl eq_refl Rlt_0_1)).
  repeat split; try (intros C; apply (f_equal vx) in C; cbn in C; lra).
  - intros C; apply (f_equal vy) in C; cbn in C; lra.
  - replace (dot (V3 0 3 0) (V3 2 0 0)) with 0 by (vunf; ring). rewrite Rabs_R0.
    pose proof PI_RGT_0. pose proof (norm_nonneg (V3 0 3 0)). pose proof (norm_nonneg (V3 2 0 0)).
    repeat apply Rmult_le_pos; auto; try lra; left; apply Rinv_0_lt_compat; lra.
Qed.

(** ** C23 *)
Lemma contains_iff hs p : beam_contains hs p = true <-> strictly_inside hs p.
Proof.
  unfold beam_contains, strictly_inside. rewrite forallb_forall. split; intros H h Hh; specialize (H h Hh).
  - now apply Rltb_true in H.
  - now apply Rltb_true.
Qed.
(** C23. contains is true exactly strictly inside every bounding half-space. *)
Lemma pC23_contains_strict : forall hs p, beam_contains hs p = true <-> strictly_inside hs p.
Proof. exact contains_iff. Qed.
(** C23. Boundary points are outside. *)
Lemma pC23_boundary_outside : forall hs h p, In h hs -> on_boundary_of h p -> beam_contains hs p = false.
Proof.
  intros hs h p Hh Hb. destruct (beam_contains hs p) eqn:E; auto. apply contains_iff in E.
  specialize (E h Hh). unfold on_boundary_of in Hb. lra.
Qed.
(** C23. The inside is convex. *)
Lemma pC23_inside_convex : forall hs p q s, 0 <= s <= 1 ->
  beam_contains hs p = true -> beam_contains hs q = true -> beam_contains hs (between s p q) = true.
Proof.
  intros hs p q s Hs. rewrite !contains_iff. intros Hp Hq h Hh. specialize (Hp h Hh). specialize (Hq h Hh).
  replace (dot (hs_n h) (between s p q) + hs_d h) with
    ((1 - s) * (dot (hs_n h) p + hs_d h) + s * (dot (hs_n h) q + hs_d h))
    by (unfold between; generalize (hs_n h), (hs_d h); intros n0 d0; clear; vdes; vunf; ring).
  set (A := dot (hs_n h) p + hs_d h) in *. set (B := dot (hs_n h) q + hs_d h) in *. clearbody A B.
  destruct (Rle_lt_dec s (1/2)).
  - assert (0 < (1 - s) * - A) by (apply Rmult_lt_0_compat; lra). assert (0 <= s * - B) by (apply Rmult_le_pos; lra). lra.
  - assert (0 <= (1 - s) * - A) by (apply Rmult_le_pos; lra). assert (0 < s * - B) by (apply Rmult_lt_0_compat; lra). lra.
Qed.
(** C23. The batched form is the single-point form at every position. *)
Lemma pC23_batch_pointwise : forall hs ps i,
  nth_error (beam_contains_batch hs ps) i = option_map (beam_contains hs) (nth_error ps i).
Proof. intros hs ps. unfold beam_contains_batch. induction ps; intros [|i]; simpl; auto. Qed.
(** C23. What a constructed beam contains, relative to the hull equations of its
    vertices: the stored coefficients are rounded to six decimals, so points
    deeper than [rounding_at] are contained and points further out than that
    are not. *)
Lemma pC23_rounded_hull : forall q vs dir w pol b eqs, make_beam q vs dir w pol = Ok b ->
  qh_eqs_QJ q vs = Ok eqs ->
  forall p,
  ((forall h, In h eqs -> dot (hs_n h) p + hs_d h < - rounding_at p) -> beam_contains (b_halfspaces b) p = true) /\
  ((exists h, In h eqs /\ rounding_at p <= dot (hs_n h) p + hs_d h) -> beam_contains (b_halfspaces b) p = false).
Proof.
  intros q vs dir w pol b eqs H E p. destruct (make_beam_inv _ _ _ _ _ _ H) as (_ & _ & _ & eqs' & _ & E' & -> & _).
  rewrite E in E'. injection E' as <-. cbn [b_halfspaces]. split.
  - intros Hin. apply contains_iff. intros h Hh. apply clean_In in Hh. destruct Hh as (e & He & ->).
    pose proof (hs_round_err e p) as Er. apply Rabs_le_inv in Er. specialize (Hin e He).
    unfold hs_val in Er. lra.
  - intros (h & Hh & Hout). destruct (beam_contains _ p) eqn:C; auto. apply contains_iff in C.
    specialize (C (hs_round h) (proj2 (clean_In _ _) (ex_intro _ h (conj Hh eq_refl)))).
    pose proof (hs_round_err h p) as Er. apply Rabs_le_inv in Er. unfold hs_val in Er. lra.
Qed.
Lemma xC23_cube : strictly_inside cube_hs vzero /\ on_boundary_of (HS (V3 1 0 0) (-1)) (V3 1 0 0) /\
  (forall h, In h cube_hs -> dot (hs_n h) vzero + hs_d h < - rounding_at vzero).
Proof.
  repeat split.
  - intros h [<-|[<-|[<-|[<-|[<-|[<-|[]]]]]]]; unfold dot, vzero; cbn [vx vy vz hs_n hs_d]; lra.
  - unfold on_boundary_of, dot. cbn [vx vy vz hs_n hs_d]. ring.
  - assert (rounding_at vzero < 1).
    { unfold rounding_at, vzero. cbn [vx vy vz]. rewrite Rabs_R0. assert (/ (2 * 10^6) < 1); [|lra].
      rewrite <- Rinv_1. apply Rinv_lt_contravar; lra. }
    set (r := rounding_at vzero) in *. clearbody r.
    intros h [<-|[<-|[<-|[<-|[<-|[<-|[]]]]]]]; unfold dot, vzero; cbn [vx vy vz hs_n hs_d]; lra.
Qed.

(** ** C24 *)
Inductive reachable_beam (q : qhull) : beam -> Prop :=
| rb_make vs dir w pol b : 0 < w -> make_beam q vs dir w pol = Ok b -> reachable_beam q b
| rb_set b vs b' : reachable_beam q b -> set_beam_vertices q b vs = Ok b' -> reachable_beam q b'.
Lemma beam_inv q b : reachable_beam q b ->
  0 < b_wavelength b /\ norm (b_wave_vector b) = 2 * PI / b_wavelength b /\ norm (b_polarization b) = 1 /\
  Rabs (dot (b_polarization b) (b_wave_vector b)) <= / 10^8 /\
  b_centroid b = mean_list (b_vertices b) /\
  qh_nvert q (b_vertices b) = Ok (length (b_vertices b)) /\
  exists eqs, qh_eqs_QJ q (b_vertices b) = Ok eqs /\ b_halfspaces b = clean_halfspaces eqs.
Proof.
  induction 1 as [vs dir w pol b Hw H|b vs b' Hr IH H].
  - destruct (make_beam_inv _ _ _ _ _ _ H) as (Nw & Nd & Np & eqs & E1 & E2 & E & Hd). rewrite E in *.
    cbn [b_wave_vector b_polarization b_wavelength b_vertices b_centroid b_halfspaces] in *. repeat split; eauto.
    + rewrite wave_norm, Rabs_right; auto; lra.
    + apply norm_unitize; auto.
  - unfold set_beam_vertices, beam_vertex_state in H.
    destruct (qh_nvert q vs) as [n0|] eqn:E1; cbn [bind] in H; [|discriminate].
    destruct (Nat.eqb_spec (length vs) n0) as [E2|E2]; cbn [assert_ bind] in H; [|discriminate].
    destruct (qh_eqs_QJ q vs) as [eqs|] eqn:E3; cbn [bind] in H; [|discriminate]. injection H as <-.
    cbn [b_wave_vector b_polarization b_wavelength b_vertices b_centroid b_halfspaces]. subst.
    destruct IH as (H1 & H2 & H3 & H4 & _). repeat split; eauto.
Qed.
(** C24. Reading back what was written returns an identical beam, for every
    beam reachable by construction and any number of vertex updates. *)
Lemma pC24_roundtrip : forall q b, reachable_beam q b -> beam_undump q (beam_dump b) = Ok b.
Proof.
  intros q b H. destruct (beam_inv q b H) as (Hw & Hk & Hp & Hd & Hc & Hn & eqs & He & Hh).
  unfold beam_undump, beam_dump. cbn [bf_vertices bf_wave_vector bf_wavelength bf_polarization bf_halfspaces].
  destruct b as [k w vs c hs pol]. cbn [b_wave_vector b_polarization b_wavelength b_vertices b_centroid b_halfspaces] in *.
  unfold make_beam, beam_vertex_state. destruct (Req_EM_T w 0); [lra|]. rewrite Hn; cbn [bind].
  rewrite Nat.eqb_refl; cbn [assert_ bind]. rewrite He; cbn [bind].
  assert (Pk : 0 < 2 * PI / w) by (apply Rdiv_lt_0_compat; [pose proof PI_RGT_0; lra|auto]).
  destruct (Req_EM_T (norm k) 0); [lra|]. destruct (Req_EM_T (norm pol) 0); [lra|].
  assert (Ek : vdiv (vscale (2 * PI / w) k) (norm k) = k).
  { rewrite Hk, vdiv_scale. generalize (2 * PI / w), Pk. clear. intros r Hr. 
    replace k with (vscale (/ r * r) k) at 2 by (rewrite Rinv_l by lra; apply vscale_1). veq. }
  assert (Ep : vdiv pol (norm pol) = pol).
  { rewrite Hp, vdiv_scale, Rinv_1. apply vscale_1. }
  rewrite Ek, Ep, (proj2 (Rleb_true _ _) Hd); cbn [assert_ bind]. subst. reflexivity.
Qed.
(** C24. The same holds when the file is read with another convex-hull routine than it was written
    with (the joggled hull is not reproducible): the half-spaces come from the file. *)
Lemma pC24_roundtrip_other_hull : forall q q' b b', reachable_beam q b -> beam_undump q' (beam_dump b) = Ok b' -> b' = b.
Proof.
  intros q q' b b' H H'. destruct (beam_inv q b H) as (Hw & Hk & Hp & Hd & Hc & Hn & eqs & He & Hh).
  unfold beam_undump in H'. match type of H' with bind ?m _ = _ => destruct m as [b1|] eqn:M end; cbn [bind] in H'; [|discriminate].
  assert (E' : b' = Beam (b_wave_vector b1) (b_wavelength b1) (b_vertices b1) (b_centroid b1) (b_halfspaces b) (b_polarization b1)) by (unfold beam_dump in H'; cbn [bf_halfspaces] in H'; congruence).
  clear H'. destruct (make_beam_inv _ _ _ _ _ _ M) as (Nw & Nd & Np & eqs' & _ & _ & E & _). clear M.
  cbn [beam_dump bf_vertices bf_wave_vector bf_wavelength bf_polarization] in *. subst b1. cbn [b_wave_vector b_wavelength b_vertices b_centroid b_polarization] in E'.
  destruct b as [k w vs c hs pol]. cbn [b_wave_vector b_polarization b_wavelength b_vertices b_centroid b_halfspaces] in *.
  assert (Pk : 0 < 2 * PI / w) by (apply Rdiv_lt_0_compat; [pose proof PI_RGT_0; lra|auto]).
  assert (Ek : vdiv (vscale (2 * PI / w) k) (norm k) = k).
  { rewrite Hk, vdiv_scale. generalize (2 * PI / w), Pk. clear. intros r Hr.
    replace k with (vscale (/ r * r) k) at 2 by (rewrite Rinv_l by lra; apply vscale_1). veq. }
  assert (Ep : vdiv pol (norm pol) = pol).
  { rewrite Hp, vdiv_scale, Rinv_1. apply vscale_1. }
  rewrite Ek, Ep in E'. subst. reflexivity.
Qed.
Lemma xC24_beam : exists b, reachable_beam cube_qhull b.
Proof. destruct xC22_beam as (b & Hb). exists b. eapply rb_make; [|exact Hb]. lra. Qed.
(** C24. A negative wavelength is accepted at construction, and such a beam
    comes back reversed. *)
Lemma pC24_negative_wavelength_reverses : forall q vs dir w pol b b',
  make_beam q vs dir w pol = Ok b -> w < 0 -> beam_undump q (beam_dump b) = Ok b' ->
  b_wave_vector b' = vneg (b_wave_vector b).
Proof.
  intros q vs dir w pol b b' H Hw H'.
  destruct (make_beam_inv _ _ _ _ _ _ H) as (Nw & Nd & Np & eqs & E1 & E2 & E & Hd).
  unfold beam_undump in H'. match type of H' with bind ?m _ = _ => destruct m as [b1|] eqn:M end; cbn [bind] in H'; [|discriminate].
  injection H' as <-. cbn [b_wave_vector]. rewrite E in *.
  cbn [beam_dump bf_vertices bf_wave_vector bf_wavelength bf_polarization b_wave_vector b_vertices b_wavelength b_polarization] in M |- *.
  destruct (make_beam_inv _ _ _ _ _ _ M) as (_ & _ & _ & eqs1 & _ & _ & E4 & _). rewrite E4. cbn [b_wave_vector].
  rewrite (vdiv_scale (vscale _ (vdiv _ _))), wave_norm by auto.
  rewrite Rabs_left by auto. pose proof PI_RGT_0.
  set (k := vdiv (vscale (2 * PI / w) dir) (norm dir)). clearbody k.
  replace (vscale (/ (2 * PI / - w)) (vscale (2 * PI / w) k)) with (vscale (/ (2 * PI / - w) * (2 * PI / w)) k)
    by (generalize (/ (2 * PI / - w)), (2 * PI / w); clear; intros; veq).
  replace (/ (2 * PI / - w) * (2 * PI / w)) with (-1) by (field; lra). clear. veq.
Qed.

(** ** C25 *)
(** C25. The point found by linear programming, whatever the LP solver and the
    least-squares step returned, is at least 1e-8 inside every half-space of
    both bodies. *)
Lemma pC25_feasible_point_checked : forall lp lsq hs p,
  find_feasible lp lsq hs = Ok (Some p) -> forall h, In h hs -> dot (hs_n h) p + hs_d h < - / 10^8.
Proof.
  intros lp lsq hs p H h Hh. unfold find_feasible in H. destruct (lp hs) as [[x slack]|]; [|discriminate].
  match type of H with bind ?m _ = _ => destruct m as [tr|] end; cbn [bind] in H; [|discriminate].
  destruct (forallb _ hs) eqn:F; [|discriminate]. injection H as <-.
  rewrite forallb_forall in F. specialize (F h Hh). now apply Rltb_true in F.
Qed.
Lemma rounding_pos p : 0 < rounding_at p.
Proof.
  unfold rounding_at. assert (0 < / (2 * 10^6)) by (apply Rinv_0_lt_compat; lra).
  apply Rmult_lt_0_compat; auto. pose proof (Rabs_pos (vx p)). pose proof (Rabs_pos (vy p)). pose proof (Rabs_pos (vz p)). lra.
Qed.
(** C25. Whenever the intersection routine goes on to call the half-space
    intersection, the interior point it passes on is strictly inside all
    half-spaces it passes on, which are those of the beam and of the body -
    provided the body's centroid is deeper inside the body than 100 times the
    largest rounding effect at the points tried (half-space coefficients are
    rounded to six decimals). *)
Lemma pC25_interior_point_strict : forall q lp lsq bhs vs eqs hs p delta,
  qh_eqs q vs = Ok eqs ->
  (forall h v, In h eqs -> In v vs -> dot (hs_n h) v + hs_d h <= 0) ->
  rounding_at (mean_list vs) <= delta ->
  (forall v, In v vs -> rounding_at (vadd (mean_list vs) (vscale (99/100) (vsub v (mean_list vs)))) <= delta) ->
  (forall h, In h eqs -> dot (hs_n h) (mean_list vs) + hs_d h < - (100 * delta)) ->
  beam_intersect q lp lsq bhs vs = Ok (HalfspaceProblem hs p) ->
  strictly_inside hs p /\ incl bhs hs /\ (forall e, In e eqs -> In (hs_round e) hs).
Proof.
  intros q lp lsq bhs vs eqs hs p delta Eq Hval Rc Rt Hc H. unfold beam_intersect in H.
  destruct (forallb _ _); [discriminate|]. rewrite Eq in H. cbn [bind] in H.
  assert (D0 : 0 < delta) by (eapply Rlt_le_trans; [apply rounding_pos|exact Rc]).
  assert (Inc : incl bhs (clean_halfspaces eqs ++ bhs) /\ (forall e, In e eqs -> In (hs_round e) (clean_halfspaces eqs ++ bhs))).
  { split; [apply incl_appr, incl_refl|]. intros e He. apply in_or_app. left. apply clean_In. eauto. }
  assert (Fin : forall p, beam_contains bhs p = true -> rounding_at p <= delta ->
     (forall h, In h eqs -> dot (hs_n h) p + hs_d h < - delta) ->
     strictly_inside (clean_halfspaces eqs ++ bhs) p).
  { intros p0 Hb Hr Hd. apply contains_iff in Hb. 
    intros h Hh. apply in_app_iff in Hh. destruct Hh as [Hh|Hh]; auto.
    apply clean_In in Hh. destruct Hh as (e & He & ->). pose proof (hs_round_err e p0) as Er. apply Rabs_le_inv in Er.
    specialize (Hd e He). unfold hs_val in Er. lra. }
  destruct (beam_contains bhs (mean_list vs)) eqn:C.
  - injection H as <- <-. split; auto. apply Fin; auto. intros h Hh. specialize (Hc h Hh). lra.
  - destruct (find _ _) as [tr|] eqn:F.
    + injection H as <- <-. split; auto. apply find_some in F. destruct F as [Hin Hb]. apply in_map_iff in Hin.
      destruct Hin as (v & <- & Hv). apply Fin; auto. intros h Hh. specialize (Hc h Hh). specialize (Hval h v Hh Hv).
      replace (dot (hs_n h) (vadd (mean_list vs) (vscale (99/100) (vsub v (mean_list vs)))) + hs_d h)
        with (1/100 * (dot (hs_n h) (mean_list vs) + hs_d h) + 99/100 * (dot (hs_n h) v + hs_d h))
        by (generalize (hs_n h), (hs_d h), (mean_list vs); clear; intros; vdes; vunf; field). lra.
    + destruct (find_feasible lp lsq (clean_halfspaces eqs ++ bhs)) as [[p0|]|] eqn:FF; cbn [bind] in H; [|discriminate|discriminate].
      injection H as <- <-. split; auto. intros h Hh. pose proof (pC25_feasible_point_checked _ _ _ _ FF h Hh) as P.
      assert (0 < / 10^8) by (apply Rinv_0_lt_compat; lra). lra.
Qed.
(** C25. The body is passed on whole exactly when all its corners are strictly inside the beam. *)
Lemma pC25_whole_body_iff : forall q lp lsq bhs vs,
  beam_intersect q lp lsq bhs vs = Ok WholeBody <->
  forall v h, In v vs -> In h bhs -> dot (hs_n h) v + hs_d h < 0.
Proof.
  intros q lp lsq bhs vs. unfold beam_intersect. destruct (forallb _ _) eqn:F.
  - split; auto. intros _ v h Hv Hh. rewrite forallb_forall in F. unfold beam_contains_batch in F.
    assert (C : beam_contains bhs v = true) by (apply F, in_map_iff; eauto).
    unfold beam_contains in C. rewrite forallb_forall in C. specialize (C h Hh). apply Rltb_true in C. exact C.
  - split.
    + destruct (qh_eqs q vs) as [eqs|]; cbn [bind]; [|discriminate]. destruct (beam_contains bhs (mean_list vs)); [discriminate|].
      destruct (find _ _); [discriminate|]. destruct (find_feasible _ _ _) as [[p0|]|]; cbn [bind]; discriminate.
    + intros H. exfalso. rewrite <- not_true_iff_false in F. apply F. apply forallb_forall. intros b Hb. unfold beam_contains_batch in Hb.
      apply in_map_iff in Hb. destruct Hb as (v & <- & Hv). unfold beam_contains. apply forallb_forall. intros h Hh. apply Rltb_true. apply (H v h Hv Hh).
Qed.
(** C25. Nothing is returned only after the LP failed or its point was rejected;
    in particular no vertex, centroid or trial point of the body is in the beam. *)
Lemma pC25_no_intersection_means : forall q lp lsq bhs vs,
  beam_intersect q lp lsq bhs vs = Ok NoIntersection ->
  beam_contains bhs (mean_list vs) = false /\
  forall v, In v vs -> beam_contains bhs (vadd (mean_list vs) (vscale (99/100) (vsub v (mean_list vs)))) = false.
Proof.
  intros q lp lsq bhs vs H. unfold beam_intersect in H.
  destruct (forallb _ _); [discriminate|]. destruct (qh_eqs q vs) as [eqs|]; cbn [bind] in H; [|discriminate].
  destruct (beam_contains bhs (mean_list vs)) eqn:C; [discriminate|]. split; auto.
  destruct (find _ _) as [tr|] eqn:F; [discriminate|]. intros v Hv. eapply find_none in F; eauto.
  apply in_map_iff. eauto.
Qed.

(** The microscopic tetrahedron with corner (1.6e-6,1.6e-6,1.6e-6) and edges of
    4e-7 along the axes; its exact outward unit half-spaces; a beam bounded by
    -1 < x < 2e-6, -1 < y,z < 1. *)
Definition micro_tet : list vec :=
  [V3 (16/10^7) (16/10^7) (16/10^7); V3 (20/10^7) (16/10^7) (16/10^7);
   V3 (16/10^7) (20/10^7) (16/10^7); V3 (16/10^7) (16/10^7) (20/10^7)].
Definition micro_eqs : list halfspace :=
  [HS (V3 (-1) 0 0) (16/10^7); HS (V3 0 (-1) 0) (16/10^7); HS (V3 0 0 (-1)) (16/10^7);
   HS (V3 (/ sqrt 3) (/ sqrt 3) (/ sqrt 3)) (- (52/10^7) * / sqrt 3)].
Definition micro_beam : list halfspace :=
  [HS (V3 1 0 0) (- (2/10^6)); HS (V3 (-1) 0 0) (-1); HS (V3 0 1 0) (-1); HS (V3 0 (-1) 0) (-1);
   HS (V3 0 0 1) (-1); HS (V3 0 0 (-1)) (-1)].
Lemma round6_16 : round6 (16/10^7) = 2/10^6.
Proof.
  unfold round6. replace (16/10^7 * 10^6) with (8/5) by lra. unfold rint, frac_part.
  assert (E1 : Int_part (8/5) = 1%Z) by (apply Int_part_eq; lra). rewrite E1.
  destruct (Rlt_dec _ _) as [L|L]; [exfalso; lra|]. destruct (Rlt_dec _ _) as [L'|L']; [|exfalso; lra].
  simpl (1+1)%Z. lra.
Qed.
Lemma round6_IZR z : round6 (IZR z) = IZR z.
Proof.
  unfold round6. replace (IZR z * 10^6) with (IZR (z * 10^6)).
  2:{ rewrite mult_IZR. f_equal. rewrite (pow_IZR 10 6). reflexivity. }
  unfold rint, frac_part.
  assert (E : Int_part (IZR (z * 10^6)) = (z * 10^6)%Z) by (apply Int_part_eq; lra).
  rewrite E. destruct (Rlt_dec _ _) as [L|L]; [|exfalso; lra]. rewrite mult_IZR. change (IZR (10^6)) with (IZR (10 ^ Z.of_nat 6)). rewrite <- (pow_IZR 10 6). field.
Qed.
(** C25. Rounding refutes the unconditional claim: the centroid handed on as
    interior point can violate a (rounded) half-space handed on with it,
    although it is strictly inside the exact body and inside the beam. *)
Lemma pC25_interior_point_refuted : exists q lp lsq bhs vs eqs hs p,
  qh_eqs q vs = Ok eqs /\
  (forall h, In h eqs -> unit (hs_n h)) /\
  (forall h v, In h eqs -> In v vs -> dot (hs_n h) v + hs_d h <= 0) /\
  beam_intersect q lp lsq bhs vs = Ok (HalfspaceProblem hs p) /\
  strictly_inside eqs p /\ strictly_inside bhs p /\ ~ strictly_inside hs p.
Proof.
  exists (Qhull (fun l => Ok (length l)) (fun _ => Ok micro_eqs) (fun _ => Ok micro_eqs)).
  exists (fun _ => None), (fun _ => Err LinAlgError), micro_beam, micro_tet, micro_eqs.
  exists (clean_halfspaces micro_eqs ++ micro_beam), (V3 (17/10^7) (17/10^7) (17/10^7)).
  assert (S3 : 0 < / sqrt 3) by (apply Rinv_0_lt_compat, sqrt_lt_R0; lra).
  assert (C : mean_list micro_tet = V3 (17/10^7) (17/10^7) (17/10^7)).
  { unfold mean_list, micro_tet. cbn [length fold_right]. vext; unfold vadd, vscale, vzero; cbn [vx vy vz INR]; field. }
  assert (B : strictly_inside micro_beam (V3 (17/10^7) (17/10^7) (17/10^7))).
  { intros h [<-|[<-|[<-|[<-|[<-|[<-|[]]]]]]]; unfold dot; cbn [vx vy vz hs_n hs_d]; lra. }
  split; [reflexivity|]. split.
  { intros h [<-|[<-|[<-|[<-|[]]]]]; unfold unit; apply norm_unit; unfold normsq, dot; cbn [vx vy vz hs_n]; try ring.
    assert (sqrt 3 * sqrt 3 = 3) by (apply sqrt_sqrt; lra). assert (sqrt 3 <> 0) by (intros Z; rewrite Z in S3; rewrite Rinv_0 in S3; lra).
    replace (/ sqrt 3 * / sqrt 3 + / sqrt 3 * / sqrt 3 + / sqrt 3 * / sqrt 3) with (3 * / (sqrt 3 * sqrt 3)) by (field; auto).
    rewrite H. field. }
  split.
  { set (k := / sqrt 3) in *. intros h v [<-|[<-|[<-|[<-|[]]]]] [<-|[<-|[<-|[<-|[]]]]]; unfold dot; cbn [vx vy vz hs_n hs_d]; fold k; clearbody k; lra. }
  split.
  { unfold beam_intersect. rewrite C.
    replace (forallb (fun b => b) (beam_contains_batch micro_beam micro_tet)) with false.
    2:{ symmetry. unfold beam_contains_batch, micro_tet. cbn [map forallb].
        replace (beam_contains micro_beam (V3 (20/10^7) (16/10^7) (16/10^7))) with false; [apply andb_false_r|].
        symmetry. eapply pC23_boundary_outside; [left; reflexivity|]. unfold on_boundary_of, dot. cbn [vx vy vz hs_n hs_d]. field. }
    cbn [qh_eqs bind]. rewrite (proj2 (contains_iff _ _) B). reflexivity. }
  split; [|split; auto].
  { set (k := / sqrt 3) in *. intros h [<-|[<-|[<-|[<-|[]]]]]; unfold dot; cbn [vx vy vz hs_n hs_d]; fold k; clearbody k; lra. }
  intros S. specialize (S (hs_round (HS (V3 (-1) 0 0) (16/10^7)))).
  assert (In (hs_round (HS (V3 (-1) 0 0) (16/10^7))) (clean_halfspaces micro_eqs ++ micro_beam)) as I.
  { apply in_or_app. left. apply clean_In. eexists. split; [left; reflexivity|reflexivity]. }
  specialize (S I). unfold hs_round, dot in S. cbn [vx vy vz hs_n hs_d] in S. rewrite round6_16, (round6_IZR (-1)), (round6_IZR 0) in S. lra.
Qed.
Lemma xC25_cube : exists delta,
  rounding_at (mean_list cube_pts) <= delta /\
  (forall v, In v cube_pts -> rounding_at (vadd (mean_list cube_pts) (vscale (99/100) (vsub v (mean_list cube_pts)))) <= delta) /\
  (forall h, In h cube_hs -> dot (hs_n h) (mean_list cube_pts) + hs_d h < - (100 * delta)) /\
  exists hs p, beam_intersect cube_qhull (fun _ => None) (fun _ => Err LinAlgError) [HS (V3 1 0 0) (-1/2)] cube_pts = Ok (HalfspaceProblem hs p).
Proof.
  assert (C : mean_list cube_pts = vzero).
  { unfold mean_list, cube_pts. cbn [length fold_right]. vext; unfold vadd, vscale, vzero; cbn [vx vy vz INR]; field. }
  assert (K : forall v, In v (vzero :: cube_pts) -> rounding_at (vadd vzero (vscale (99/100) (vsub v vzero))) <= / 10^3).
  { intros v Hv. unfold rounding_at.
    assert (Rabs (vx v) <= 1 /\ Rabs (vy v) <= 1 /\ Rabs (vz v) <= 1).
    { destruct Hv as [<-|[<-|[<-|[<-|[<-|[<-|[<-|[<-|[<-|[]]]]]]]]]]; cbn [vx vy vz vzero]; repeat split; apply Rabs_le; lra. }
    assert (X : forall a, Rabs a <= 1 -> Rabs (0 + 99/100 * (a - 0)) <= 1).
    { intros a Ha. apply Rabs_le_inv in Ha. apply Rabs_le. lra. }
    destruct H as (H1 & H2 & H3). apply X in H1, H2, H3. unfold vadd, vscale, vsub. cbn [vx vy vz vzero].
    apply (Rle_trans _ (/ (2 * 10^6) * 4)); [|lra]. apply Rmult_le_compat_l; lra. }
  exists (/ 10^3). rewrite C. repeat split.
  - replace vzero with (vadd vzero (vscale (99/100) (vsub vzero vzero))) at 1 by veq. apply K. now left.
  - intros v Hv. apply K. now right.
  - intros h [<-|[<-|[<-|[<-|[<-|[<-|[]]]]]]]; unfold dot, vzero; cbn [vx vy vz hs_n hs_d]; lra.
  - unfold beam_intersect. rewrite C.
    replace (forallb _ _) with false.
    2:{ symmetry. unfold cube_pts, beam_contains_batch. cbn [map forallb]. 
        replace (beam_contains _ (V3 1 1 1)) with false; [reflexivity|]. symmetry. unfold beam_contains. cbn [forallb].
        unfold hs_val, dot. cbn [vx vy vz hs_n hs_d]. rewrite (proj2 (Rltb_false _ _)) by lra. reflexivity. }
    cbn [cube_qhull qh_eqs bind]. replace (beam_contains _ vzero) with true; eauto.
    symmetry. apply contains_iff. intros h [<-|[]]. unfold dot, vzero; cbn [vx vy vz hs_n hs_d]; lra.
Qed.

(** ** C26 *)
Definition ends_le (x : R) (l : list (R * R)) := forall a b, In (a, b) l -> b <= x.
Definition good_ivs (c : nat -> bool) (ts : list R) (N : nat) (l : list (R * R)) :=
  forall a b, In (a, b) l -> exists j, (j < N)%nat /\ c j = true /\ a <= tnth ts j <= b.
Lemma set_last_app e acc a b : set_last_end e (acc ++ [(a, b)]) = acc ++ [(a, e)].
Proof. unfold set_last_end. rewrite rev_app_distr. cbn. now rewrite rev_involutive. Qed.
Lemma covered_app x l m : covered x l \/ covered x m -> covered x (l ++ m).
Proof. intros [(a & b & H & E)|(a & b & H & E)]; exists a, b; split; auto; apply in_or_app; auto. Qed.
Definition prox_inv (c : nat -> bool) (ts : list R) (N i : nat) (cnt : bool) (acc : list (R * R)) : Prop :=
  good_ivs c ts N acc /\
  if cnt then exists s acc' a, (s < i)%nat /\ acc = acc' ++ [(a, tnth ts (s + 1))] /\ a <= tnth ts s /\
      (s = 0%nat \/ c (s - 1)%nat = false) /\ (forall j, (s <= j < i)%nat -> c j = true) /\
      (forall j, (j < s)%nat -> c j = true -> covered (tnth ts j) acc') /\ ends_le (tnth ts s) acc'
  else (forall j, (j < i)%nat -> c j = true -> covered (tnth ts j) acc) /\ ends_le (tnth ts i) acc /\ c (i - 1)%nat = false.
Lemma prox_loop_inv c ts N n : forall i cnt acc,
  (forall i j, (i <= j < N)%nat -> tnth ts i <= tnth ts j) ->
  (1 <= i)%nat -> (i + n = N - 1)%nat -> prox_inv c ts N i cnt acc ->
  prox_inv c ts N (N - 1) (fst (prox_loop c ts i n cnt acc)) (snd (prox_loop c ts i n cnt acc)).
Proof.
  induction n as [|n IH]; intros i cnt acc Mono Hi Hn Inv; cbn [prox_loop].
  - cbn [fst snd]. replace (N - 1)%nat with i by lia. auto.
  - destruct Inv as [G Inv].
    destruct (c i) eqn:Ci; destruct cnt; cbn [andb negb].
    + apply IH; auto; try lia. split; auto. destruct Inv as (s & acc' & a & H1 & H2 & H3 & H4 & H5 & H6 & H7).
      exists s, acc', a. repeat split; auto; try lia.
      intros j Hj. destruct (Nat.eq_dec j i) as [->|]; auto. apply H5. lia.
    + apply IH; auto; try lia. destruct Inv as (H1 & H2 & H3). split.
      * intros a b Hab. apply in_app_iff in Hab. destruct Hab as [Hab|[Hab|[]]]; auto.
        injection Hab as <- <-. exists i. repeat split; auto; try lia; apply Mono; lia.
      * exists i, acc, (tnth ts (i - 1)). repeat split; auto; try lia.
        -- apply Mono; lia.
        -- intros j Hj. replace j with i by lia. auto.
    + apply IH; auto; try lia. destruct Inv as (s & acc' & a & H1 & H2 & H3 & H4 & H5 & H6 & H7).
      subst acc. rewrite set_last_app. split; [|split; [|split]].
      * intros x y Hxy. apply in_app_iff in Hxy. destruct Hxy as [Hxy|[Hxy|[]]]; [apply G, in_or_app; auto|].
        injection Hxy as <- <-. exists s. repeat split; auto; try lia; first [apply H5; lia|apply Mono; lia].
      * intros j Hj Cj. destruct (le_lt_dec s j).
        -- apply covered_app. right. exists a, (tnth ts (i + 1)). split; [left; auto|]. split.
           ++ eapply Rle_trans; [exact H3|]. apply Mono; lia.
           ++ apply Mono. assert (j <> i) by congruence. lia.
        -- apply covered_app. left. auto.
      * intros x y Hxy. apply in_app_iff in Hxy. destruct Hxy as [Hxy|[Hxy|[]]].
        -- eapply Rle_trans; [eapply H7; eauto|]. apply Mono; lia.
        -- injection Hxy as <- <-. apply Mono. lia.
      * replace (S i - 1)%nat with i by lia. auto.
    + apply IH; auto; try lia. destruct Inv as (H1 & H2 & H3). split; auto. split; [|split].
      * intros j Hj Cj. apply H1; auto. assert (j <> i) by congruence. lia.
      * intros x y Hxy. eapply Rle_trans; [eapply H2; eauto|]. apply Mono; lia.
      * replace (S i - 1)%nat with i by lia. auto.
Qed.
Lemma prox_mid_inv col ts : (2 <= length col)%nat ->
  (forall i j, (i <= j < length col)%nat -> tnth ts i <= tnth ts j) ->
  let c := fun i => nth i col false in
  let start := if c 0%nat then (true, [(tnth ts 0, tnth ts 1)]) else (false, []) in
  let mid := prox_loop c ts 1 (length col - 2) (fst start) (snd start) in
  prox_inv c ts (length col) (length col - 1) (fst mid) (snd mid).
Proof.
  intros HN Mono c start mid. apply prox_loop_inv; auto; try lia.
  unfold start. destruct (c 0%nat) eqn:C; cbn [fst snd].
  - split.
    + intros a b [Hab|[]]. injection Hab as <- <-. exists 0%nat. repeat split; auto; try lia; apply Mono; lia.
    + exists 0%nat, [], (tnth ts 0). repeat split; auto; try lia; try lra.
      * intros j Hj. replace j with 0%nat by lia. auto.
      * intros ? ? [].
  - split; [intros a b []|]. split; [|split].
    + intros j Hj. replace j with 0%nat by lia. congruence.
    + intros a b [].
    + auto.
Qed.
(** C26. The sampled time i of a candidate is covered by the returned intervals
    unless it lies in the cut tail described by [tail_cut], in which case it is
    not covered. *)
Lemma pC26_covered_iff : forall col ts l i,
  length col = length ts -> (2 <= length col)%nat ->
  (forall i j, (i < j < length ts)%nat -> nth i ts 0 < nth j ts 0) ->
  proximity col ts = Some l -> (i < length col)%nat -> nth i col false = true ->
  (covered (nth i ts 0) l <-> ~ tail_cut col i).
Proof.
  intros col ts l i HL HN Strict H Hi Ci.
  assert (Mono : forall i j, (i <= j < length col)%nat -> tnth ts i <= tnth ts j).
  { intros i0 j Hj. destruct (Nat.eq_dec i0 j) as [->|]; [lra|]. left. apply Strict. lia. }
  unfold proximity in H. destruct (negb _); [discriminate|]. injection H as <-.
  pose proof (prox_mid_inv col ts HN Mono) as Inv. cbv zeta in Inv.
  set (c := fun i => nth i col false) in *.
  change (nth (length col - 1) col false) with (c (length col - 1)%nat).
  destruct (prox_loop c ts 1 _ _ _) as [cnt acc]. cbn [fst snd] in *.
  change (nth i ts 0) with (tnth ts i). change (nth i col false) with (c i) in Ci.
  set (N := length col) in *. destruct Inv as [G Inv].
  destruct (c (N - 1)%nat) eqn:CL.
  - assert (NC : ~ tail_cut col i) by (intros (X & _); fold N in X; change (c (N-1)%nat = false) in X; congruence).
    split; auto. intros _. destruct cnt.
    + destruct Inv as (s & acc' & a & H1 & -> & H3 & H4 & H5 & H6 & H7). rewrite set_last_app.
      apply covered_app. destruct (le_lt_dec s i); [right|left; auto].
      exists a, (tnth ts (N - 1)). split; [left; auto|]. split; [|apply Mono; lia].
      eapply Rle_trans; [exact H3|]. apply Mono; lia.
    + destruct Inv as (H1 & _). apply covered_app. destruct (Nat.eq_dec i (N - 1)) as [->|]; [right|left; apply H1; auto; lia].
      exists (tnth ts (N - 1 - 1)), (tnth ts (N - 1)). split; [left; auto|]. split; [apply Mono; lia|lra].
  - assert (Hi' : (i < N - 1)%nat) by (assert (i <> N - 1)%nat by congruence; lia).
    destruct cnt.
    + destruct Inv as (s & acc' & a & H1 & -> & H3 & H4 & H5 & H6 & H7).
      destruct (le_lt_dec i (s + 1)) as [Hs|Hs].
      * split.
        { intros _ (_ & T1 & T2 & T3 & T4). fold N in T1. change (c (i - 1)%nat = true) in T3. change (c (i - 2)%nat = true) in T4.
          destruct H4 as [->|H4]; [lia|].
          destruct (Nat.eq_dec i (s + 1)) as [->|]; [replace (s + 1 - 2)%nat with (s - 1)%nat in T4 by lia; congruence|].
          destruct (Nat.eq_dec i s) as [->|]; [congruence|].
          specialize (T1 (s - 1)%nat). change (nth (s - 1) col false) with (c (s - 1)%nat) in T1. rewrite H4 in T1. discriminate T1; lia. }
        { intros _. apply covered_app. destruct (le_lt_dec s i); [right|left; auto].
          exists a, (tnth ts (s + 1)). split; [left; auto|]. split; [|apply Mono; lia].
          eapply Rle_trans; [exact H3|]. apply Mono; lia. }
      * split.
        { intros (x & y & Hxy & E) _. apply in_app_iff in Hxy. destruct Hxy as [Hxy|[Hxy|[]]].
          - apply H7 in Hxy. assert (tnth ts s < tnth ts i) by (apply Strict; lia). lra.
          - injection Hxy as <- <-. assert (tnth ts (s + 1) < tnth ts i) by (apply Strict; lia). lra. }
        { intros NC. exfalso. apply NC. repeat split; auto.
          - intros j Hj. fold N in Hj. apply (H5 j). lia.
          - lia.
          - apply (H5 (i - 1)%nat). lia.
          - apply (H5 (i - 2)%nat). lia. }
    + destruct Inv as (H1 & _ & H3). split; [|intros _; apply H1; auto].
      intros _ (_ & T1 & _). fold N in T1. specialize (T1 (N - 1 - 1)%nat).
      change (nth (N - 1 - 1) col false) with (c (N - 1 - 1)%nat) in T1. rewrite H3 in T1. discriminate T1; lia.
Qed.
(** C26. Every returned interval runs between sampled times around at least one
    candidate sample; [None] is returned exactly when there is no candidate. *)
Lemma pC26_intervals_sound : forall col ts, (2 <= length col)%nat -> length col = length ts ->
  (forall i j, (i <= j < length ts)%nat -> nth i ts 0 <= nth j ts 0) ->
  (proximity col ts = None <-> forall i, (i < length col)%nat -> nth i col false = false) /\
  (forall l a b, proximity col ts = Some l -> In (a, b) l ->
     exists j, (j < length col)%nat /\ nth j col false = true /\ a <= nth j ts 0 <= b).
Proof.
  intros col ts HN HL Mono. rewrite <- HL in Mono. split.
  - unfold proximity. destruct (existsb (fun b => b) col) eqn:E; cbn [negb].
    + split; [discriminate|]. intros H. exfalso. apply existsb_exists in E. destruct E as (x & Hx & ->).
      apply (In_nth _ _ false) in Hx. destruct Hx as (n & Hn & Hn'). rewrite H in Hn'; auto. discriminate.
    + split; auto. intros _ i Hi. destruct (nth i col false) eqn:Ci; auto.
      assert (existsb (fun b => b) col = true); [|congruence]. apply existsb_exists. exists true. split; auto.
      rewrite <- Ci. apply nth_In; auto.
  - intros l a b H Hab. unfold proximity in H. destruct (negb _); [discriminate|]. injection H as <-.
    pose proof (prox_mid_inv col ts HN Mono) as Inv. cbv zeta in Inv.
    set (c := fun i => nth i col false) in *.
    change (nth (length col - 1) col false) with (c (length col - 1)%nat) in *.
    destruct (prox_loop c ts 1 _ _ _) as [cnt acc]. cbn [fst snd] in *. destruct Inv as [G Inv].
    set (N := length col) in *.
    destruct (c (N - 1)%nat) eqn:CL; [|apply (G _ _ Hab)].
    destruct cnt.
    + destruct Inv as (s & acc' & a' & H1 & -> & H3 & H4 & H5 & H6 & H7). rewrite set_last_app in Hab.
      apply in_app_iff in Hab. destruct Hab as [Hab|[Hab|[]]]; [apply (G a b), in_or_app; auto|].
      injection Hab as <- <-. exists s. repeat split; auto; try lia; first [apply (H5 s); lia|apply Mono; lia].
    + apply in_app_iff in Hab. destruct Hab as [Hab|[Hab|[]]]; [apply (G a b); auto|].
      injection Hab as <- <-. exists (N - 1)%nat. repeat split; auto; try lia; first [apply Mono; lia|lra].
Qed.
Lemma linspace_nth n i : (i < n)%nat -> nth i (linspace01 n) 0 = INR i / INR (n - 1).
Proof.
  intros H. unfold linspace01. rewrite (nth_indep _ 0 (INR n / INR (n - 1))) by (now rewrite map_length, seq_length).
  rewrite (map_nth (fun i => INR i / INR (n - 1))), seq_nth by auto. reflexivity.
Qed.
Lemma linspace_length n : length (linspace01 n) = n.
Proof. unfold linspace01. now rewrite map_length, seq_length. Qed.
Lemma linspace_strict n i j : (i < j < length (linspace01 n))%nat -> nth i (linspace01 n) 0 < nth j (linspace01 n) 0.
Proof.
  rewrite linspace_length. intros H. rewrite !linspace_nth by lia. unfold Rdiv. apply Rmult_lt_compat_r.
  - apply Rinv_0_lt_compat, lt_0_INR. lia.
  - apply lt_INR. lia.
Qed.
(** C26. The cut tail occurs: candidates at the first four of five equidistant
    samples, the last of them is not covered. *)
Lemma pC26_tail_refuted : exists col l, length col = 5%nat /\
  proximity col (linspace01 5) = Some l /\ nth 3 col false = true /\ ~ covered (nth 3 (linspace01 5) 0) l.
Proof.
  exists [true; true; true; true; false]. eexists. split; [reflexivity|]. split; [reflexivity|]. split; [reflexivity|].
  intros C. eapply (proj1 (pC26_covered_iff [true; true; true; true; false] (linspace01 5) _ 3 eq_refl ltac:(cbn; lia) (linspace_strict 5) eq_refl ltac:(cbn; lia) eq_refl) C).
  split; [reflexivity|]. split; [|cbn; repeat split; auto; lia].
  intros j Hj. cbn in Hj. assert (j = 3%nat) as -> by lia. reflexivity.
Qed.
Lemma xC26_covers : exists l, proximity [false; true; true; false; false] (linspace01 5) = Some l /\
  ~ tail_cut [false; true; true; false; false] 2 /\ covered (nth 2 (linspace01 5) 0) l.
Proof.
  assert (NC : ~ tail_cut [false; true; true; false; false] 2).
  { intros (_ & T & _). specialize (T 3%nat). cbn in T. discriminate T; lia. }
  eexists. split; [reflexivity|]. split; auto.
  eapply (proj2 (pC26_covered_iff [false; true; true; false; false] (linspace01 5) _ 2 eq_refl ltac:(cbn; lia) (linspace_strict 5) eq_refl ltac:(cbn; lia) eq_refl)). auto.
Qed.

(** ** C27 *)
Lemma trunc_nat_ge x n : INR n <= x -> (n <= trunc_nat x)%nat.
Proof.
  intros H. unfold trunc_nat. destruct (base_Int_part x) as [H1 H2].
  assert (Z.of_nat n <= Int_part x)%Z; [|lia]. apply Z.lt_succ_r. apply lt_IZR. rewrite <- INR_IZR_INZ.
  unfold Z.succ. rewrite plus_IZR. lra.
Qed.
Lemma n_samples_ge radii m n : n_samples radii m = Ok n -> (3 <= n)%nat.
Proof.
  unfold n_samples. destruct (rmin radii); [|discriminate]. intros H. injection H as <-.
  apply trunc_nat_ge. rewrite Rplus_comm.
  match goal with |- context [Rmax ?a (Rmax ?b 2)] => pose proof (Rmax_r a (Rmax b 2)); pose proof (Rmax_r b 2) end.
  cbn [INR]. lra.
Qed.
Lemma wsum_dot n d ws vs : length ws = length vs ->
  dot n (fold_right vadd vzero (map (fun wv => vscale (fst wv) (snd wv)) (combine ws vs))) + d * sum_list ws
  = sum_list (map (fun wv => fst wv * (dot n (snd wv) + d)) (combine ws vs)).
Proof.
  revert vs. induction ws as [|w ws IH]; intros [|v vs] H; cbn [combine map fold_right] in *; try discriminate.
  - rewrite !sum_list_nil. vdes; vunf; ring.
  - rewrite !sum_list_cons, <- IH by (simpl in H; congruence). cbn [fst snd].
    generalize (fold_right vadd vzero (map (fun wv => vscale (fst wv) (snd wv)) (combine ws vs))) as q. intros q.
    generalize (sum_list ws). clear. intros; vdes; vunf; ring.
Qed.
Lemma hull_halfspace vs p h : in_hull vs p -> (forall v, In v vs -> dot (hs_n h) v + hs_d h <= 0) -> dot (hs_n h) p + hs_d h <= 0.
Proof.
  intros (ws & HL & Hw & Hs & ->) H.
  replace (hs_d h) with (hs_d h * sum_list ws) by (rewrite Hs; ring). rewrite wsum_dot by auto.
  cut (0 <= sum_list (map (fun wv => fst wv * - (dot (hs_n h) (snd wv) + hs_d h)) (combine ws vs))).
  { intros X. assert (Y : sum_list (map (fun wv => fst wv * - (dot (hs_n h) (snd wv) + hs_d h)) (combine ws vs))
       = -1 * sum_list (map (fun wv => fst wv * (dot (hs_n h) (snd wv) + hs_d h)) (combine ws vs))).
    { rewrite <- sum_list_map_scal. f_equal. apply map_ext. intros; ring. } lra. }
  apply sum_list_nonneg. intros x Hx. apply in_map_iff in Hx. destruct Hx as ([w v] & <- & Hwv). cbn [fst snd].
  apply Rmult_le_pos; [apply Hw; eapply in_combine_l; eauto|]. apply in_combine_r in Hwv. specialize (H v Hwv). lra.
Qed.
(** move_at is affine, hence maps hulls to hulls. *)
Lemma move_at_affine m t x : move_at m t x = vadd (rot_at m t x) (move_at m t vzero).
Proof. unfold move_at, rot_at. generalize (rod_matrix (m_axis m) (m_angle m * t)). intros Q. rewrite !mv_sub.
  generalize (mv Q x), (mv Q (m_origin m)). intros. replace (mv Q vzero) with vzero by (clear; veq). veq. Qed.
Lemma move_hull m t vs p : in_hull vs p -> in_hull (map (move_at m t) vs) (move_at m t p).
Proof.
  intros (ws & HL & Hw & Hs & ->). exists ws. rewrite map_length. repeat split; auto.
  rewrite move_at_affine. set (o := move_at m t vzero).
  replace o with (vscale (sum_list ws) o) by (rewrite Hs; apply vscale_1). clear Hs Hw.
  revert vs HL. induction ws as [|w ws IH]; intros [|v vs] HL; cbn [combine map fold_right] in *; try discriminate.
  - rewrite sum_list_nil, vscale_0. unfold rot_at. generalize (rod_matrix (m_axis m) (m_angle m * t)). intros; veq.
  - rewrite sum_list_cons, <- IH by (simpl in HL; congruence). cbn [fst snd].
    rewrite (move_at_affine m t v). fold o. unfold rot_at. generalize (rod_matrix (m_axis m) (m_angle m * t)). intros Q.
    rewrite mv_add, mv_scale.
    generalize (mv Q v), (mv Q (fold_right vadd vzero (map (fun wv => vscale (fst wv) (snd wv)) (combine ws vs)))).
    generalize (sum_list ws) o. clear. intros; veq.
Qed.
Lemma comp_le_norm a : Rabs (vx a) <= norm a /\ Rabs (vy a) <= norm a /\ Rabs (vz a) <= norm a.
Proof.
  repeat split; unfold norm; rewrite <- sqrt_Rsqr_abs; apply sqrt_le_1_alt; unfold Rsqr; destruct a as [x y z]; unfold normsq, dot; cbn [vx vy vz]; nra.
Qed.
Lemma round_normal_dot h x : unit (hs_n h) -> Rabs (dot (hs_n (hs_round h)) x) <= (1 + 3 / (2 * 10^6)) * norm x.
Proof.
  intros U. destruct (comp_le_norm x) as (X1 & X2 & X3).
  pose proof (cauchy (hs_n h) x) as C. rewrite U, Rmult_1_l in C.
  destruct h as [[a b c] d], x as [x y z]. unfold hs_round. cbn [hs_n vx vy vz] in *.
  pose proof (abs_prod_le _ x _ (round6_err a)) as A1. pose proof (abs_prod_le _ y _ (round6_err b)) as A2.
  pose proof (abs_prod_le _ z _ (round6_err c)) as A3. unfold dot in *. cbn [vx vy vz] in *.
  set (nn := norm _) in *. set (k := / (2 * 10^6)) in *.
  assert (K : 0 < k) by (apply Rinv_0_lt_compat; lra).
  replace (3 / (2 * 10^6)) with (3 * k) by (unfold k; field).
  replace (round6 a * x + round6 b * y + round6 c * z)
    with ((a * x + b * y + c * z) + (((round6 a - a) * x + (round6 b - b) * y) + (round6 c - c) * z)) by ring.
  eapply Rle_trans; [apply Rabs_triang|]. 
  assert (T : Rabs ((round6 a - a) * x + (round6 b - b) * y + (round6 c - c) * z) <= k * Rabs x + k * Rabs y + k * Rabs z).
  { eapply Rle_trans; [apply Rabs_triang|]. eapply Rle_trans; [apply Rplus_le_compat_r, Rabs_triang|]. lra. }
  pose proof (Rmult_le_compat_l k _ _ (Rlt_le _ _ K) X1). pose proof (Rmult_le_compat_l k _ _ (Rlt_le _ _ K) X2).
  pose proof (Rmult_le_compat_l k _ _ (Rlt_le _ _ K) X3). lra.
Qed.
Lemma repeat_one_eq {A} (c : A) (centres : list A) n : length centres = n ->
  match centres with [x] => repeat x n | _ => centres end = centres.
Proof. destruct centres as [|x [|y l]]; simpl; intros <-; auto. Qed.
Lemma candidate_inv q vs m centres radii mask ts : candidate_spheres q vs m centres radii = Ok (mask, ts) ->
  length centres = length radii ->
  exists inv n, motion_inverse m = Ok inv /\ n_samples radii m = Ok n /\ ts = linspace01 n /\
    traverse (candidate_row q vs inv centres radii) ts = Ok mask.
Proof.
  unfold candidate_spheres. destruct (motion_inverse m) as [inv|]; cbn [bind]; [|discriminate].
  destruct (n_samples radii m) as [n|]; cbn [bind]; [|discriminate]. cbv zeta. intros H HL.
  rewrite (repeat_one_eq vzero _ _ HL) in H.
  destruct (Nat.eqb _ _) in H; cbn [negb] in H; [|discriminate].
  destruct (traverse _ _) as [rows|] eqn:E in H; cbn [bind] in H; [|discriminate]. injection H as <- <-.
  exists inv, n. auto.
Qed.
(** C27. Conservative at every sampled time t, if the motion's inverse really
    inverts at t (see C03): a sphere that reaches the beam then - up to the
    effect of rounding the half-spaces to six decimals - is marked as
    candidate.  [p] is a point of the beam, seen in the sample frame at
    [p'] (i.e. p is p' moved), [c] the centre. *)
Lemma pC27_conservative : forall q vs a w T o m centres radii mask ts k j t row c r p' eqs,
  make_motion a w T o = Ok m -> unit a ->
  candidate_spheres q vs m centres radii = Ok (mask, ts) -> length centres = length radii ->
  nth_error ts k = Some t -> nth_error mask k = Some row ->
  nth_error centres j = Some c -> nth_error radii j = Some r ->
  right_handed_rotation a (w * t) (vscale t T) = vscale t T ->
  (forall inv, motion_inverse m = Ok inv -> qh_eqs q (map (move_at inv t) vs) = Ok eqs /\
     (forall h, In h eqs -> unit (hs_n h) /\ forall v, In v (map (move_at inv t) vs) -> dot (hs_n h) v + hs_d h <= 0)) ->
  in_hull vs (move_at m t p') ->
  (1 + 3 / (2 * 10^6)) * dist (move_at m t p') (move_at m t c) + rounding_at p' <= r ->
  nth_error row j = Some true.
Proof.
  intros q vs a w T o m centres radii mask ts k j t row c r p' eqs Hm U H HL Ht Hrow Hc Hr Fix Hq Hp Hd.
  destruct (candidate_inv _ _ _ _ _ _ _ H HL) as (inv & n & Hi & _ & -> & Tr).
  destruct (Hq inv Hi) as (Eq & Val). clear Hq.
  pose proof (inverse_ok _ _ _ _ _ Hm) as Hi'. rewrite Hi in Hi'. injection Hi' as Hinv.
  assert (Inv : move_at inv t (move_at m t p') = p').
  { apply make_motion_ok_iff in Hm as (_ & _ & Em). rewrite <- rod_spec in Fix by auto.
    subst inv. subst m. apply (proj2 (inverse_undoes_iff (Motion a w T o) t U)). exact Fix. }
  assert (Um : unit (m_axis m)) by (apply make_motion_ok_iff in Hm as (_ & _ & ->); auto).
  pose proof (traverse_spec _ _ _ Tr) as F2.
  pose proof (Forall2_nth' _ _ _ k _ _ F2 Ht Hrow) as Row. unfold candidate_row in Row. rewrite Eq in Row. cbn [bind] in Row.
  injection Row as <-. rewrite zip_with_nth_error, Hc, Hr. f_equal.
  apply negb_true_iff. apply not_true_iff_false. intros Ex. apply existsb_exists in Ex. destruct Ex as (h' & Hh' & Lt).
  apply Rltb_true in Lt. apply clean_In in Hh'. destruct Hh' as (h & Hh & ->).
  destruct (Val h Hh) as (Un & Vv).
  assert (In0 : dot (hs_n h) p' + hs_d h <= 0).
  { apply (hull_halfspace (map (move_at inv t) vs)); auto. rewrite <- Inv. now apply move_hull. }
  pose proof (hs_round_err h p') as Er. apply Rabs_le_inv in Er.
  assert (Sp : hs_val (hs_round h) c = hs_val (hs_round h) p' + dot (hs_n (hs_round h)) (vsub c p')).
  { unfold hs_val. generalize (hs_n (hs_round h)), (hs_d (hs_round h)). clear. intros; vdes; vunf; ring. }
  pose proof (round_normal_dot h (vsub c p') Un) as B. apply Rabs_le_inv in B.
  destruct (move_at_rigid m t Um) as [Dp _]. rewrite Dp in Hd.
  replace (norm (vsub c p')) with (dist p' c) in B by (rewrite dist_comm; reflexivity).
  unfold hs_val in Er, Lt, Sp |- *. lra.
Qed.
(** C27. At least three times are sampled, from 0 to 1. *)
Lemma pC27_sampling : forall q vs m centres radii mask ts, length centres = length radii ->
  candidate_spheres q vs m centres radii = Ok (mask, ts) ->
  (3 <= length ts)%nat /\ length mask = length ts /\ nth 0 ts 0 = 0 /\ nth (length ts - 1) ts 0 = 1.
Proof.
  intros q vs m centres radii mask ts HL H. destruct (candidate_inv _ _ _ _ _ _ _ H HL) as (inv & n & Hi & Hn & -> & Tr).
  apply n_samples_ge in Hn. rewrite linspace_length. pose proof (traverse_spec _ _ _ Tr) as F2.
  apply Forall2_len in F2. rewrite linspace_length in F2. repeat split; auto.
  - rewrite linspace_nth by lia. cbn [INR]. unfold Rdiv. ring.
  - rewrite linspace_nth by lia. apply Rinv_r. apply not_0_INR. lia.
Qed.
(** Cube moved by (-10,0,0). *)
Definition far_cube_hs : list halfspace :=
  [HS (V3 1 0 0) 9; HS (V3 (-1) 0 0) (-11); HS (V3 0 1 0) (-1); HS (V3 0 (-1) 0) (-1);
   HS (V3 0 0 1) (-1); HS (V3 0 0 (-1)) (-1)].
Lemma rod_quarter v : mv (rod_matrix (V3 0 0 1) (PI/2 * 1)) v = V3 (- vy v) (vx v) (vz v).
Proof.
  rewrite Rmult_1_r, rod_closed, sin_PI2, cos_PI2. destruct v as [x y z]. vext; vunf; ring.
Qed.
Lemma rod_quarter_inv v : mv (rod_matrix (vneg (V3 0 0 1)) (PI/2 * 1)) v = V3 (vy v) (- vx v) (vz v).
Proof.
  rewrite Rmult_1_r, rod_closed, sin_PI2, cos_PI2. destruct v as [x y z]. vext; vunf; ring.
Qed.
(** C27. Not conservative in general: quarter turn about z while translating by
    10 along x, beam the cube [-1,1]^3.  The sphere of radius 1 about (0,10,0)
    sits at time 1 exactly at the centre of the beam, but is not marked at
    time 1, although the hull equations used for that time are exactly those of
    the inversely moved beam vertices. *)
Lemma pC27_conservative_refuted : exists q m mask ts row,
  make_motion (V3 0 0 1) (PI/2) (V3 10 0 0) vzero = Ok m /\
  candidate_spheres q cube_pts m [V3 0 10 0] [1] = Ok (mask, ts) /\
  (forall inv, motion_inverse m = Ok inv ->
     exists eqs, qh_eqs q (map (move_at inv 1) cube_pts) = Ok eqs /\
     (forall h, In h eqs -> unit (hs_n h) /\ forall v, In v (map (move_at inv 1) cube_pts) -> dot (hs_n h) v + hs_d h <= 0) /\
     (forall h, In h eqs -> exists v, In v (map (move_at inv 1) cube_pts) /\ on_boundary_of h v)) /\
  nth (length ts - 1) ts 0 = 1 /\ nth_error mask (length ts - 1) = Some row /\ nth_error row 0 = Some false /\
  move_at m 1 (V3 0 10 0) = vzero.
Proof.
  assert (Wm : 0 < PI / 2 < PI) by (pose proof PI_RGT_0; lra).
  pose proof (make_motion_unit (V3 0 0 1) (PI/2) (V3 10 0 0) vzero unit_ez Wm) as Hm.
  set (m := Motion (V3 0 0 1) (PI/2) (V3 10 0 0) vzero) in *.
  set (q := Qhull (fun l => Ok (length l)) (fun _ => Ok far_cube_hs) (fun _ => Ok far_cube_hs)).
  pose proof (inverse_ok _ _ _ _ _ Hm) as Hi. cbn [m_axis m_angle m_trans m_origin m] in Hi.
  set (inv := Motion (vneg (V3 0 0 1)) (PI/2) (vneg (V3 10 0 0)) vzero) in *.
  assert (Hn : exists n, n_samples [1] m = Ok n) by (unfold n_samples; cbn [rmin]; eauto). destruct Hn as (n & Hn).
  assert (Tr : exists mask, traverse (candidate_row q cube_pts inv [V3 0 10 0] [1]) (linspace01 n) = Ok mask).
  { apply traverse_ok. intros x Hx. unfold candidate_row. cbn [q qh_eqs bind]. eauto. }
  destruct Tr as (mask & Tr).
  assert (CS : candidate_spheres q cube_pts m [V3 0 10 0] [1] = Ok (mask, linspace01 n)).
  { unfold candidate_spheres. rewrite Hi. cbn [bind]. rewrite Hn. cbn [bind length repeat Nat.eqb negb].
    rewrite Tr. reflexivity. }
  pose proof (pC27_sampling q cube_pts m [V3 0 10 0] [1] mask (linspace01 n) eq_refl CS) as (S1 & S2 & S3 & S4).
  destruct (nth_error mask (length (linspace01 n) - 1)) as [row|] eqn:Er.
  2:{ apply nth_error_None in Er. lia. }
  exists q, m, mask, (linspace01 n), row. split; auto. split; auto. split; [|split; [auto|split; [auto|split]]].
  - intros i' Hi2. rewrite Hi in Hi2. injection Hi2 as <-.
    exists far_cube_hs. split; [reflexivity|].
    assert (Mv : map (move_at inv 1) cube_pts =
      [V3 (-9) (-1) 1; V3 (-9) (-1) (-1); V3 (-11) (-1) 1; V3 (-11) (-1) (-1);
       V3 (-9) 1 1; V3 (-9) 1 (-1); V3 (-11) 1 1; V3 (-11) 1 (-1)]).
    { unfold cube_pts. cbn [map]. unfold move_at, rot_at. cbn [inv m_axis m_angle m_trans m_origin]. rewrite !rod_quarter_inv.
      repeat f_equal; vext; vunf; ring. }
    rewrite Mv. split.
    + intros h Hh. split.
      * destruct Hh as [<-|[<-|[<-|[<-|[<-|[<-|[]]]]]]]; unfold unit; apply norm_unit; unfold normsq, dot; cbn [vx vy vz hs_n]; ring.
      * intros v Hv. destruct Hh as [<-|[<-|[<-|[<-|[<-|[<-|[]]]]]]];
        destruct Hv as [<-|[<-|[<-|[<-|[<-|[<-|[<-|[<-|[]]]]]]]]]; unfold dot; cbn [vx vy vz hs_n hs_d]; lra.
    + unfold on_boundary_of, dot. 
      intros h [<-|[<-|[<-|[<-|[<-|[<-|[]]]]]]]; cbn [vx vy vz hs_n hs_d].
      * exists (V3 (-9) (-1) 1). split; [left; auto|]. cbn [vx vy vz]; ring.
      * exists (V3 (-11) (-1) 1). split; [right; right; left; auto|]. cbn [vx vy vz]; ring.
      * exists (V3 (-9) 1 1). split; [do 4 right; left; auto|]. cbn [vx vy vz]; ring.
      * exists (V3 (-9) (-1) 1). split; [left; auto|]. cbn [vx vy vz]; ring.
      * exists (V3 (-9) (-1) 1). split; [left; auto|]. cbn [vx vy vz]; ring.
      * exists (V3 (-9) (-1) (-1)). split; [right; left; auto|]. cbn [vx vy vz]; ring.
  - pose proof (traverse_spec _ _ _ Tr) as F2.
    assert (Ht : nth_error (linspace01 n) (length (linspace01 n) - 1) = Some 1).
    { rewrite (nth_error_nth' _ 0) by lia. now rewrite S4. }
    pose proof (Forall2_nth' _ _ _ _ _ _ F2 Ht Er) as Row. unfold candidate_row in Row. cbn [q qh_eqs bind zip_with] in Row.
    injection Row as <-. cbn [nth_error]. f_equal. apply negb_false_iff. apply existsb_exists.
    exists (hs_round (HS (V3 1 0 0) 9)). split; [apply clean_In; eexists; split; [left; reflexivity|reflexivity]|].
    apply Rltb_true. unfold hs_val, hs_round, dot. cbn [vx vy vz hs_n hs_d].
    rewrite (round6_IZR 1), (round6_IZR 0), (round6_IZR 9). lra.
  - unfold move_at, rot_at. cbn [m m_axis m_angle m_trans m_origin]. rewrite rod_quarter. vext; vunf; ring.
Qed.
(** C27. The documented (3,n) layout of the centres raises for every n other than
    3; for n = 3 the array is read with rows and columns exchanged. *)
Lemma pC27_documented_layout_raises : forall q vs m xs ys zs radii n,
  length xs = n -> length ys = n -> length zs = n -> n <> 3%nat ->
  candidate_spheres_doc q vs m xs ys zs radii = Err RuntimeError.
Proof.
  intros q vs m xs ys zs radii n H1 H2 H3 Hn. unfold candidate_spheres_doc.
  destruct xs as [|? [|? [|? [|]]]]; try reflexivity. simpl in H1. congruence.
Qed.
(** With exactly three spheres the documented layout is accepted but read by rows: the mask is the one of three
    other spheres, whose centres are the x, the y and the z coordinates. *)
Lemma pC27_documented_layout_transposed : forall q vs m x1 x2 x3 y1 y2 y3 z1 z2 z3 radii,
  candidate_spheres_doc q vs m [x1; x2; x3] [y1; y2; y3] [z1; z2; z3] radii =
  candidate_spheres q vs m [V3 x1 x2 x3; V3 y1 y2 y3; V3 z1 z2 z3] radii.
Proof. reflexivity. Qed.
Lemma xC27_cube : exists m mask ts row,
  make_motion (V3 0 0 1) 1 (V3 1 0 0) vzero = Ok m /\
  candidate_spheres cube_qhull cube_pts m [V3 (3/2) 0 0] [1] = Ok (mask, ts) /\
  nth_error ts 0 = Some 0 /\ nth_error mask 0 = Some row /\
  right_handed_rotation (V3 0 0 1) (1 * 0) (vscale 0 (V3 1 0 0)) = vscale 0 (V3 1 0 0) /\
  (forall inv, motion_inverse m = Ok inv -> qh_eqs cube_qhull (map (move_at inv 0) cube_pts) = Ok cube_hs /\
     (forall h, In h cube_hs -> unit (hs_n h) /\ forall v, In v (map (move_at inv 0) cube_pts) -> dot (hs_n h) v + hs_d h <= 0)) /\
  in_hull cube_pts (move_at m 0 (V3 1 0 0)) /\
  (1 + 3 / (2 * 10^6)) * dist (move_at m 0 (V3 1 0 0)) (move_at m 0 (V3 (3/2) 0 0)) + rounding_at (V3 1 0 0) <= 1.
Proof.
  assert (Wm : 0 < 1 < PI) by (pose proof PI2_1; lra).
  pose proof (make_motion_unit (V3 0 0 1) 1 (V3 1 0 0) vzero unit_ez Wm) as Hm.
  set (m := Motion (V3 0 0 1) 1 (V3 1 0 0) vzero) in *.
  pose proof (inverse_ok _ _ _ _ _ Hm) as Hi.
  assert (Hn : exists n, n_samples [1] m = Ok n) by (unfold n_samples; cbn [rmin]; eauto). destruct Hn as (n & Hn).
  set (inv := Motion (vneg (V3 0 0 1)) 1 (vneg (V3 1 0 0)) vzero) in *.
  assert (Tr : exists mask, traverse (candidate_row cube_qhull cube_pts inv [V3 (3/2) 0 0] [1]) (linspace01 n) = Ok mask).
  { apply traverse_ok. intros x Hx. unfold candidate_row. cbn [cube_qhull qh_eqs bind]. eauto. }
  destruct Tr as (mask & Tr).
  assert (CS : candidate_spheres cube_qhull cube_pts m [V3 (3/2) 0 0] [1] = Ok (mask, linspace01 n)).
  { unfold candidate_spheres. rewrite Hi. cbn [bind]. rewrite Hn. cbn [bind length repeat Nat.eqb negb].
    rewrite Tr. reflexivity. }
  pose proof (pC27_sampling _ _ _ [V3 (3/2) 0 0] [1] _ _ eq_refl CS) as (S1 & S2 & S3 & S4).
  destruct (nth_error mask 0) as [row|] eqn:Er; [|apply nth_error_None in Er; lia].
  exists m, mask, (linspace01 n), row. repeat split; auto.
  - rewrite (nth_error_nth' _ 0) by lia. now rewrite S3.
  - replace (vscale 0 (V3 1 0 0)) with vzero by (symmetry; apply vscale_0). 
    unfold right_handed_rotation, across, along. vext; vunf; ring.
  - destruct H0 as [<-|[<-|[<-|[<-|[<-|[<-|[]]]]]]]; unfold unit; apply norm_unit; unfold normsq, dot; cbn [vx vy vz hs_n]; ring.
  - intros v Hv. apply in_map_iff in Hv. destruct Hv as (v0 & <- & Hv). rewrite move_at_0.
    destruct H0 as [<-|[<-|[<-|[<-|[<-|[<-|[]]]]]]];
        destruct Hv as [<-|[<-|[<-|[<-|[<-|[<-|[<-|[<-|[]]]]]]]]]; unfold dot; cbn [vx vy vz hs_n hs_d]; lra.
  - rewrite move_at_0. exists [1/4; 1/4; 1/4; 1/4; 0; 0; 0; 0]. repeat split; auto.
    + intros x [<-|[<-|[<-|[<-|[<-|[<-|[<-|[<-|[]]]]]]]]]; lra.
    + rewrite !sum_list_cons, sum_list_nil. lra.
    + unfold cube_pts. cbn [combine map fold_right fst snd]. vext; vunf; field.
  - rewrite !move_at_0. replace (dist (V3 1 0 0) (V3 (3/2) 0 0)) with (1/2).
    + unfold rounding_at. cbn [vx vy vz]. rewrite Rabs_R0, Rabs_R1. lra.
    + unfold dist, norm. replace (normsq (vsub (V3 1 0 0) (V3 (3/2) 0 0))) with ((1/2) * (1/2)) by (vunf; field).
      symmetry. apply sqrt_square. lra.
Qed.
