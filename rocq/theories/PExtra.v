(** * Proofs: further facts about the Bragg-angle helper (C11), singular reciprocal matrices (C21),
    the radius of Airy kernels (C44), reloading a polycrystal (C63) and the cylinder's sides (C76). *)
From Verif Require Import Vec Spec MMotion PMotion MLaue PLaue MMesh PMesh MScattering MStrain PStrain MBeam MPolycrystal SPolycrystal MDetector SDetector PDetector MRender SRender.
From Verif Require Import PDetector4 PRender MPersist SPersist PPersist MTemplates STemplates PTemplates PCylinder PRenderEx.
Open Scope R_scope.
Local Notation len := List.length.

(** C11: the (deprecated) Bragg-angle helper gives half the angle between the incoming and the
    diffracted wave vector of every diffracting G. *)
Lemma pC11_bragg_angle : forall k G wavelength, 0 < wavelength -> norm k = 2 * PI / wavelength -> laue_condition k G ->
  0 <= bragg_angle G wavelength <= PI / 2 /\
  dot k (vadd k G) = norm k * norm (vadd k G) * cos (2 * bragg_angle G wavelength).
Proof.
  intros k G wl Hw Hk HL. unfold laue_condition in HL. pose proof PI_RGT_0 as HP. unfold bragg_angle.
  assert (Kp : 0 < norm k) by (rewrite Hk; apply Rdiv_lt_0_compat; lra).
  assert (Es : norm G * wl / (4 * PI) = norm G / (2 * norm k)) by (rewrite Hk; field; lra). rewrite Es. set (s := norm G / (2 * norm k)).
  assert (Tri : norm G <= 2 * norm k).
  { replace G with (vsub (vadd k G) k) by veq. pose proof (norm_triangle (vadd k G) (vneg k)) as T. replace (norm (vneg k)) with (norm k) in T by (unfold norm; f_equal; veq || (vdes; vunf; ring)).
    replace (vsub (vadd k G) k) with (vadd (vadd k G) (vneg k)) by veq. lra. }
  pose proof (norm_nonneg G) as Gn.
  assert (S0 : 0 <= s) by (unfold s; apply Rmult_le_pos; [auto|apply Rlt_le, Rinv_0_lt_compat; lra]).
  assert (S1 : s <= 1) by (unfold s; apply Rmult_le_reg_r with (2 * norm k); [lra|]; unfold Rdiv; rewrite Rmult_assoc, Rinv_l by lra; lra).
  split.
  - destruct (asin_bound s). split; [|lra]. destruct (Rle_dec 0 (asin s)) as [|N]; auto. exfalso. assert (B : sin (asin s) < 0) by (apply sin_lt_0_var; lra). rewrite sin_asin in B by lra. lra.
  - rewrite cos_2a_sin, sin_asin by lra. rewrite HL.
    assert (E1 : dot (vadd k G) (vadd k G) = dot k k).
    { pose proof (norm_sq (vadd k G)) as A. pose proof (norm_sq k) as B. rewrite HL in A. unfold normsq in *. lra. }
    assert (E2 : dot k (vadd k G) = dot k k - dot G G / 2).
    { assert (X : dot (vadd k G) (vadd k G) = dot k k + 2 * dot k G + dot G G) by (vdes; vunf; ring). assert (Y : dot k (vadd k G) = dot k k + dot k G) by (vdes; vunf; ring). lra. }
    rewrite E2. pose proof (norm_sq G) as A. pose proof (norm_sq k) as B. unfold normsq in *. rewrite <- A, <- B. unfold s. field. lra.
Qed.
Lemma xC11_bragg_angle : norm (V3 (2 * PI) 0 0) = 2 * PI / 1 /\ laue_condition (V3 (2 * PI) 0 0) (V3 (- (2 * PI)) (2 * PI) 0) /\ V3 (- (2 * PI)) (2 * PI) 0 <> vzero.
Proof.
  pose proof PI_RGT_0 as HP. split; [|split].
  - unfold norm. replace (normsq (V3 (2 * PI) 0 0)) with ((2 * PI) * (2 * PI)) by (vunf; ring). rewrite sqrt_square by lra. field.
  - unfold laue_condition, norm. f_equal. vunf. ring.
  - intros E. apply (f_equal vx) in E. cbn in E. lra.
Qed.
(** C21: a singular reciprocal matrix raises LinAlgError when converted to a strain. *)
Lemma pC21_singular_B : forall B B0, det B = 0 -> b_to_epsilon B B0 = Err LinAlgError.
Proof. intros B B0 H. unfold b_to_epsilon, inv_checked. destruct (Req_EM_T (det B) 0); [reflexivity|contradiction]. Qed.

(** C44: size of the sampled window: the profile's Gaussian factor is below half the threshold at the
    radius, or the radius is 128 pixels, the largest allowed; it covers four first zeros when that
    fits, and it is not larger than needed. *)
Lemma airy_loop_spec sigma thr f : forall r, 8 <= r -> 128 < r * 2 ^ f -> exists j, 
  let r' := airy_radius_loop sigma thr r f in r' = r * 2 ^ j /\
  (128 < r' \/ nlt (gexp sigma (r'^2)) (Fin thr) = true) /\
  (forall i, (i < j)%nat -> r * 2 ^ i <= 128 /\ nlt (gexp sigma ((r * 2 ^ i)^2)) (Fin thr) = false).
Proof.
  induction f as [|f IH]; intros r H8 Hf.
  - exists 0%nat. cbn [airy_radius_loop pow] in *. split; [lra|]. split; [left; lra|intros; lia].
  - cbn [airy_radius_loop]. destruct (Rle_dec r 128) as [L|L].
    + destruct (nlt (gexp sigma (r^2)) (Fin thr)) eqn:E.
      * exists 0%nat. cbv zeta. cbn [pow]. split; [lra|]. split; [right; exact E|intros; lia].
      * destruct (IH (2 * r)) as (j & A & B & C); [lra|cbn [pow] in Hf; lra|]. exists (S j). cbv zeta in *. split; [rewrite A; cbn [pow]; ring|]. split; auto.
        intros [|i] Hi; [cbn [pow]; rewrite Rmult_1_r; split; [lra|exact E]|]. replace (r * 2 ^ S i) with (2 * r * 2 ^ i) by (cbn [pow]; ring). apply C. lia.
    + exists 0%nat. cbv zeta. cbn [pow]. split; [lra|]. split; [left; lra|intros; lia].
Qed.
Lemma pC44_radius : forall d fz radius, d_sigma d <> 0 -> airy_radius d (Fin fz) = Ok radius ->
  let tail r := exp (- r^2 / (2 * (d_sigma d)^2)) in
  let start := Rmax (4 * fz) 8 in
  radius <= 128 /\ (radius = 128 \/ (start <= radius /\ tail radius < d_threshold d / 2)) /\
  (radius < 128 -> radius = start \/ d_threshold d / 2 <= tail (radius / 2)).
Proof.
  intros d fz radius Hs H. cbv zeta. unfold airy_radius in H. cbv zeta in H. set (r0 := Rmax (4 * fz) 8) in *.
  assert (R8 : 8 <= r0) by apply Rmax_r. destruct (airy_loop_spec (d_sigma d) (d_threshold d / 2) 6 r0 R8) as (j & A & B & C); [cbn [pow]; lra|]. cbv zeta in *.
  set (r := airy_radius_loop _ _ _ _) in *. clearbody r.
  assert (G : forall x, gexp (d_sigma d) x = Fin (exp (- x / (2 * d_sigma d ^ 2)))) by (intros x; unfold gexp; destruct (Req_EM_T (d_sigma d) 0); [contradiction|reflexivity]).
  assert (P : 1 <= 2 ^ j) by (apply pow_R1_Rle; lra).
  destruct (Rlt_dec 128 r) as [L|L].
  - assert (radius = 128) by congruence. subst radius. split; [lra|]. split; [now left|lra].
  - assert (radius = r) by congruence. subst radius. split; [lra|]. destruct B as [B|B]; [contradiction|]. rewrite G in B. cbn [nlt] in B. apply Rltb_true in B. split.
    + right. split; [nra|exact B].
    + intros _. destruct j as [|j]; [left; rewrite A; cbn [pow]; ring|right]. destruct (C j) as [C1 C2]; [lia|]. rewrite G in C2. cbn [nlt] in C2.
      replace (r / 2) with (r0 * 2 ^ j) by (rewrite A; cbn [pow]; field). unfold Rltb in C2. destruct (Rlt_dec _ _); [discriminate|lra].
Qed.
Lemma xC44_radius : exists d fz radius, built d /\ d_sigma d <> 0 /\ airy_radius d (Fin fz) = Ok radius.
Proof.
  exists (flat 10 1 9 1 (2/100) 2), (21/10). unfold airy_radius. eexists. split; [apply flat_built; [lra|lia]|]. split; [cbn [flat d_sigma]; lra|]. reflexivity.
Qed.
(** C63: a polycrystal with a tensor phase map comes back identical; so does any polycrystal that was
    loaded before, and diffracting it gives the same answers. *)
Lemma pC63_reload_identity : forall ot d path xdmf p l, openable d (with_ext ".pc" path) = true -> pc_map p = MapTensor l ->
  polycrystal_load (fst (polycrystal_save ot d path xdmf p)) (with_ext ".pc" path) = Ok p.
Proof.
  intros ot d path xd p l H Hm. rewrite pC63_save_load_polycrystal by auto. f_equal. destruct p. cbn in Hm. subst. reflexivity.
Qed.
(** A polycrystal with the default map differs from its reloaded copy in that map's representation only. *)
Lemma pC63_reload_default : forall ot d path xdmf p p', openable d (with_ext ".pc" path) = true ->
  polycrystal_load (fst (polycrystal_save ot d path xdmf p)) (with_ext ".pc" path) = Ok p' ->
  map_values (pc_map p') = map_values (pc_map p) /\ pc_volumes p' = pc_volumes p /\ pc_U p' = pc_U p /\ pc_eps p' = pc_eps p /\
  pc_phases p' = pc_phases p /\ pc_eB p' = pc_eB p /\ pc_mesh_lab p' = pc_mesh_lab p /\ pc_mesh_sample p' = pc_mesh_sample p /\
  pc_eps_sample p' = pc_eps_sample p /\ pc_U_sample p' = pc_U_sample p.
Proof.
  intros ot d path xd p p' H E. rewrite pC63_save_load_polycrystal in E by auto. assert (p' = reload p) by congruence. subst p'. repeat split.
Qed.
(** C76: neighbouring points on the rim are about 4.2 times the radius of a sphere holding one
    crystal's share of the volume apart, never much more; the eight-side minimum may make them closer. *)
Lemma cbrt_cube rho : 0 < rho -> Rpower (rho^3) (1/3) = rho.
Proof.
  intros H. unfold Rpower. replace (rho ^ 3) with (Rpower rho 3).
  - unfold Rpower. rewrite ln_exp. replace (1 / 3 * (3 * ln rho)) with (ln rho) by field. now apply exp_ln.
  - rewrite <- (Rpower_pow 3) by auto. f_equal. cbn [INR]. ring.
Qed.
Lemma pC76_spacing : forall height radius crystals rho, 0 < radius -> 0 < rho ->
  4/3 * PI * rho^3 = PI * radius^2 * height / INR crystals ->
  let n := INR (cylinder_sides height radius crystals) in
  2 * PI * radius / (n + 1) < 42/10 * rho /\ (8 < n -> 42/10 * rho <= 2 * PI * radius / n).
Proof.
  intros h radius c rho Hr Hp E. cbv zeta. pose proof PI_RGT_0 as HP.
  assert (Ec : cell_circumradius h radius c = 42/10 * rho).
  { unfold cell_circumradius. f_equal. rewrite <- E. replace (3 * (4 / 3 * PI * rho ^ 3) / (PI * 4)) with (rho^3) by (field; lra). now apply cbrt_cube. }
  unfold cylinder_sides. rewrite Ec. set (q := 2 * PI * radius / (42/10 * rho)).
  assert (Q : 0 < q) by (unfold q; apply Rdiv_lt_0_compat; nra). destruct (ztrunc_nonneg q) as [[A1 A2] A3]; [lra|].
  set (k := ztrunc q) in *. clearbody k.
  assert (Eq : 2 * PI * radius = q * (42/10 * rho)) by (unfold q; field; lra). rewrite Eq.
  rewrite INR_IZR_INZ, Z2Nat.id by lia. set (n := IZR (Z.max 8 k)).
  assert (N8 : 8 <= n) by (apply IZR_le; lia). assert (Nk : IZR k <= n) by (apply IZR_le; lia). split.
  - apply Rmult_lt_reg_r with (n + 1); [lra|]. unfold Rdiv. rewrite Rmult_assoc, Rinv_l by lra. nra.
  - intros H8. assert (n = IZR k). { unfold n in *. f_equal. apply lt_IZR in H8. lia. }
    apply Rmult_le_reg_r with n; [lra|]. unfold Rdiv. rewrite (Rmult_assoc _ (/ n)), Rinv_l by lra. nra.
Qed.
Lemma xC76_spacing : exists height radius crystals rho, 0 < radius /\ 0 < rho /\ 4/3 * PI * rho^3 = PI * radius^2 * height / INR crystals.
Proof. exists (4/3), 1, 1%nat, 1. cbn [INR]. repeat split; try lra; field. Qed.
(** C55: a call succeeds only if the axis is an array and every other documented value a number. *)
Lemma pC55_types : forall q p r k, s3dxrd q p = Ok r -> In k documented_keys ->
  match p k with Some (VVec _) => k = "rotation_axis"%string | Some (VNum _) => k <> "rotation_axis"%string | None => False end.
Proof.
  intros q p r k H Hk.
  assert (V : forall j x, get_vec p j = Ok x -> exists v, p j = Some (VVec v)) by (intros j x; unfold get_vec; destruct (p j) as [[]|]; try discriminate; eauto).
  assert (N : forall j x, get_num p j = Ok x -> exists v, p j = Some (VNum v)) by (intros j x; unfold get_num; destruct (p j) as [[]|]; try discriminate; eauto).
  unfold s3dxrd in H. destruct (forallb _ _); [|discriminate]. unfold detector_from_params, beam_from_params, motion_from_params in H.
  repeat match type of H with context [get_num p ?s] => let x := fresh "x" in let E := fresh "E" in destruct (get_num p s) as [x|] eqn:E; cbn [bind] in H; [apply N in E as (? & E)|first [discriminate | destruct (make_detector _ _ _ _ _ _ _ _ _ _ _); cbn [bind] in H; [|discriminate]; first [discriminate | destruct (make_beam _ _ _ _ _); cbn [bind] in H; [|discriminate]; destruct (get_vec _ _); discriminate]]] end.
  destruct (make_detector _ _ _ _ _ _ _ _ _ _ _); cbn [bind] in H; [|discriminate]. destruct (make_beam _ _ _ _ _); cbn [bind] in H; [|discriminate].
  destruct (get_vec p "rotation_axis") as [ax|] eqn:EV; cbn [bind] in H; [|discriminate]. apply V in EV as (? & EV).
  repeat (destruct Hk as [<-|Hk]; [rewrite ?E, ?E0, ?E1, ?E2, ?E3, ?E4, ?E5, ?E6, ?E7, ?E8, ?E9, ?EV; (discriminate || reflexivity)|]). destruct Hk.
Qed.
