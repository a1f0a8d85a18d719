(** * Concrete detectors and peak tables used by the non-vacuity witnesses and the
    counterexamples about rendering. *)
From Verif Require Import Vec Spec MMotion MLaue MMesh MStrain MBeam MPolycrystal SPolycrystal MDetector SDetector.
From Verif Require Import MRender SRender PLaue PBeam PScattering PPolycrystal3 PDetector PDetector2 PDetector3 PDetector4 PRender.
Open Scope R_scope.

(** N x N pixels of size p, in the plane x = D. *)
Definition flat (D p : R) (N : positive) (sg th : R) (mr : Z) : detector :=
  Det (V3 D 0 0) (V3 D (IZR (Zpos N) * p) 0) (V3 D 0 (IZR (Zpos N) * p)) (IZR (Zpos N) * p) (IZR (Zpos N) * p) p p
    (nfin (V3 0 0 1)) (nfin (V3 0 1 0)) (nfin (V3 (-1) 0 0)) (Pos.to_nat N) (Pos.to_nat N) sg th mr true true true.
Lemma IZR_pos_pos N : 0 < IZR (Zpos N). Proof. apply IZR_lt. lia. Qed.
Lemma flat_make D p N sg th mr : 0 < p -> (0 <= mr)%Z ->
  make_detector (V3 D 0 0) (V3 D (IZR (Zpos N) * p) 0) (V3 D 0 (IZR (Zpos N) * p)) None (Some (Single p)) sg th mr true true true
  = Ok (flat D p N sg th mr).
Proof.
  intros Hp Hmr. pose proof (IZR_pos_pos N) as HN. set (L := IZR (Zpos N) * p).
  assert (HL : 0 < L) by (apply Rmult_lt_0_compat; auto).
  assert (D1 : norm (vsub (V3 D 0 L) (V3 D 0 0)) = L) by (apply norm_sqrt_eq; vunf; [lra|ring]).
  assert (D2 : norm (vsub (V3 D L 0) (V3 D 0 0)) = L) by (apply norm_sqrt_eq; vunf; [lra|ring]).
  unfold make_detector. cbv zeta. rewrite D1, D2. cbn [pixel_sizes bind first_of second_of fst snd].
  assert (A : arange_len L p = Ok (Pos.to_nat N)).
  { unfold arange_len. destruct (Req_EM_T p 0); [lra|]. replace (Rltb p 0) with false by (symmetry; apply Rltb_false; lra).
    cbn [andb]. f_equal. rewrite (ceil_eq (L / p) (Zpos N)); [reflexivity|]. unfold L, Rdiv. rewrite Rmult_assoc, Rinv_r by lra. lra. }
  rewrite A. cbn [bind]. replace (mr <? 0)%Z with false by (symmetry; apply Z.ltb_ge; lia). unfold flat. fold L.
  assert (E1 : nvdiv false (nfin (vsub (V3 D 0 L) (V3 D 0 0))) (Fin L) = nfin (V3 0 0 1)).
  { unfold nvdiv, nfin. cbn [nx ny nz]. rewrite !ndiv_fin by lra. f_equal; f_equal; vunf; field; lra. }
  assert (E2 : nvdiv false (nfin (vsub (V3 D L 0) (V3 D 0 0))) (Fin L) = nfin (V3 0 1 0)).
  { unfold nvdiv, nfin. cbn [nx ny nz]. rewrite !ndiv_fin by lra. f_equal; f_equal; vunf; field; lra. }
  rewrite E1, E2.
  assert (E3 : ncross (nfin (V3 0 0 1)) (nfin (V3 0 1 0)) = nfin (V3 (-1) 0 0)).
  { unfold ncross, nfin, nsub, nadd, nneg, nmul; cbn. f_equal; f_equal; ring. }
  rewrite E3.
  assert (E4 : nnorm (nfin (V3 (-1) 0 0)) = Fin 1).
  { unfold nnorm, ndot, nfin. unfold nadd. cbn [nx ny nz vx vy vz nmul nsqrt].
    replace (-1 * -1 + 0 * 0 + 0 * 0) with 1 by ring. destruct (Rlt_dec 1 0); [lra|]. now rewrite sqrt_1. }
  rewrite E4.
  assert (E5 : nvdiv false (nfin (V3 (-1) 0 0)) (Fin 1) = nfin (V3 (-1) 0 0)).
  { unfold nvdiv, nfin. cbn [nx ny nz]. rewrite !ndiv_fin by lra. f_equal; f_equal; vunf; field. }
  rewrite E5. reflexivity.
Qed.
Lemma flat_built D p N sg th mr : 0 < p -> (0 <= mr)%Z -> built (flat D p N sg th mr).
Proof. intros H H'. do 11 eexists. apply flat_make; auto. Qed.

Lemma flat_hit z D p N sg th mr y h : 0 < D -> 0 < p ->
  get_intersection z (flat D p N sg th mr) (nfin (V3 1 0 0)) (nfin (V3 0 y h)) = (Fin h, Fin y, Fin 0).
Proof.
  intros HD Hp. change (get_intersection z (flat D p N sg th mr)) with (get_intersection z (flat D p N sg th 0)). set (d := flat D p N sg th 0). pose proof (IZR_pos_pos N) as HN. set (L := IZR (Zpos N) * p).
  assert (HL : 0 < L) by (apply Rmult_lt_0_compat; auto).
  assert (EN : N_of d = V3 (- L * L) 0 0) by (unfold N_of, plane_normal; cbn [d flat d_c0 d_c1 d_c2]; fold L; vext; vunf; ring).
  assert (HLL : 0 < L * L) by (apply Rmult_lt_0_compat; auto).
  assert (Hb : built d) by (apply flat_built; [auto|lia]).
  rewrite (intersection_closed z d _ _ Hb) by (rewrite EN; vunf; lra).
  assert (Es : svalue d (V3 1 0 0) (V3 0 y h) = D).
  { unfold svalue. rewrite EN. cbn [d flat d_c0]. vunf. field. lra. }
  rewrite Es. cbv zeta. replace (Rltb D 0) with false by (symmetry; apply Rltb_false; lra).
  assert (Ep : ray_at (V3 0 y h) (V3 1 0 0) D = V3 D y h) by (unfold ray_at; vext; vunf; ring).
  rewrite Ep.
  assert (D1 : norm (vsub (V3 D 0 L) (V3 D 0 0)) = L) by (apply norm_sqrt_eq; vunf; [lra|ring]).
  assert (D2 : norm (vsub (V3 D L 0) (V3 D 0 0)) = L) by (apply norm_sqrt_eq; vunf; [lra|ring]).
  unfold zhat_of, yhat_of, dist. cbn [d flat d_c0 d_c1 d_c2]. fold L. rewrite D1, D2.
  f_equal; [f_equal|]; f_equal.
  - vunf. field. lra.
  - vunf. field. lra.
  - unfold incident_of. rewrite EN.
    assert (N1 : norm (V3 (- L * L) 0 0) = L * L) by (apply norm_sqrt_eq; vunf; [lra|ring]).
    assert (N2 : norm (V3 1 0 0) = 1) by (apply norm_sqrt_eq; vunf; lra).
    rewrite ?N1, ?N2. vunf.
    match goal with |- acos ?x * _ = _ => replace x with 1 by (field; lra) end.
    rewrite acos_1. lra.
Qed.

(** A ray along x from (0, y, h), with Lorentz and polarisation factors 1. *)
Record spot := Spot { s_y : R; s_h : R; s_t : R; s_sf : R; s_vol : R; s_fw : R }.
Definition spot_row (s : spot) : list num :=
  map Fin [0; 0; 1; 0; 0; s_sf s; s_t s; 0; 0; 0; 0; 0; 0; 1; 0; 0; 0; s_y s; s_h s; 1; 1; s_vol s; 0; s_fw s; 0].
Definition spot_out (frames : Z) (s : spot) : list num :=
  spot_row s ++ map Fin [s_h s; s_y s; 0; IZR (frame_of frames (Fin (s_t s))); s_sf s].
Definition good_spot (L : R) (s : spot) : Prop :=
  0 <= s_y s <= L /\ 0 <= s_h s <= L /\ 0 < s_sf s.
Lemma flat_extend z D p N sg th mr frames s : 0 < D -> 0 < p -> good_spot (IZR (Zpos N) * p) s ->
  extend z (flat D p N sg th mr) frames (spot_row s) = spot_out frames s /\
  keepb z (flat D p N sg th mr) frames (spot_row s) = true.
Proof.
  intros HD Hp (Hy & Hh & Hs). set (d := flat D p N sg th mr).
  assert (EI : get_intersection z d (row_nvec (spot_row s) 13) (row_nvec (spot_row s) 16) = (Fin (s_h s), Fin (s_y s), Fin 0)).
  { exact (flat_hit z D p N sg th mr (s_y s) (s_h s) HD Hp). }
  assert (Eint : intensity d (spot_row s) = Fin (s_sf s)).
  { unfold intensity. cbn [d flat d_structure d_polarization d_lorentz]. unfold ncol, spot_row. cbn [nth map nmul].
    cbv beta iota zeta. f_equal. ring. }
  split.
  - rewrite extend_eq by (cbn; lia). rewrite EI, Eint. reflexivity.
  - rewrite (keepb_fresh z d frames (spot_row s) _ _ _ eq_refl EI), Eint. cbn [is_finite andb].
    unfold det_contains. cbn [d flat d_zmax d_ymax nle nlt].
    repeat match goal with |- context[Rleb ?a ?b] => replace (Rleb a b) with true by (symmetry; apply Rleb_true; lra) end.
    cbn [andb]. apply Rltb_true. lra.
Qed.
Definition spot_table (ss : list spot) (me : mesh) (b : beam) : peaks_dict := ex_table (map spot_row ss) me b.
Lemma spot_fresh ss me b : fresh (spot_table ss me b).
Proof. split; [reflexivity|]. cbn. apply Forall_forall. intros r Hr. apply in_map_iff in Hr as (s & <- & _). reflexivity. Qed.
Definition projected_table (frames : Z) (ss : list spot) (me : mesh) (b : beam) : peaks_dict :=
  PD (map (spot_out frames) ss) (column_names ++ new_columns) (V3 1 0 0) 1 (V3 0 0 1) me ex_motion b.
Lemma flat_project z D p N sg th mr frames ss me b : 0 < D -> 0 < p -> Forall (good_spot (IZR (Zpos N) * p)) ss ->
  project z (flat D p N sg th mr) (spot_table ss me b) frames = Ok (projected_table frames ss me b).
Proof.
  intros HD Hp Hg. destruct (project_ok z (flat D p N sg th mr) (spot_table ss me b) frames) as [out Ho].
  { destruct (spot_fresh ss me b) as [_ H]. eapply Forall_impl; [|exact H]. cbn. intros; lia. }
  rewrite Ho. f_equal. apply project_inv in Ho as (H1 & H2 & H3 & H4 & H5 & H6 & H7 & H8). destruct out. cbn in *. subst.
  unfold projected_table. f_equal. clear - HD Hp Hg. induction Hg as [|s ss Hs _ IH]; auto. cbn [map filter].
  destruct (flat_extend z D p N sg th mr frames s HD Hp Hs) as [E K]. rewrite K. cbn [map]. now rewrite E, IH.
Qed.
Lemma volumes_spot ss me b : Forall (fun s => 0 <= s_vol s) ss -> volumes_ok (spot_table ss me b).
Proof.
  intros H r Hr. cbn in Hr. apply in_map_iff in Hr as (s & <- & Hs). rewrite Forall_forall in H. exists (s_vol s). split; auto.
  reflexivity.
Qed.
Lemma ex_world : exists (me : mesh) (b : beam), True.
Proof. destruct big_beam as (b & _). destruct ex_mesh as (me & _). exists me, b. exact I. Qed.
(** An environment with the given free memory (GB), Bessel function and order. *)
Definition ex_env (free : R) (j1 : R -> R) (argsort : list num -> list nat) : render_env :=
  REnv false free free j1 argsort big_qhull (fun _ => None) (fun _ => Err ValueError) (fun _ _ => Err ValueError) (fun _ _ _ => []).
