(** * Structure factors: symmetry, absences and the resolution parameter (C61). *)
From Verif Require Import Vec Spec MMotion MLaue MMesh MScattering MBeam MPolycrystal MStructure SStructure.
From Verif Require Import PLaue PMesh PRender PPolycrystal PStructure.
From Coq Require Import String Permutation Ratan.
Open Scope R_scope.
Local Notation len := List.length.

Lemma trig_2pik k : cos (2 * PI * IZR k) = 1 /\ sin (2 * PI * IZR k) = 0.
Proof.
  assert (S : sin (PI * IZR k) = 0) by (apply sin_eq_0_1; exists k; ring). replace (2 * PI * IZR k) with (2 * (PI * IZR k)) by ring. rewrite cos_2a_sin, sin_2a, S. split; ring.
Qed.
Lemma cos_int x k : cos (x + 2 * PI * IZR k) = cos x. Proof. rewrite cos_plus. destruct (trig_2pik k) as [-> ->]. ring. Qed.
Lemma sin_int x k : sin (x + 2 * PI * IZR k) = sin x. Proof. rewrite sin_plus. destruct (trig_2pik k) as [-> ->]. ring. Qed.
Lemma integer_dot a b : integer_vec a -> integer_vec b -> exists k, dot a b = IZR k.
Proof.
  intros (x & y & z & ->) (x' & y' & z' & ->). exists (x * x' + y * y' + z * z')%Z. vunf. now rewrite !plus_IZR, !mult_IZR.
Qed.
Lemma dot_mT A h v : dot (mv (mT A) h) v = dot h (mv A v).
Proof. destruct A as [[? ? ?] [? ? ?] [? ? ?]], h, v. vunf. ring. Qed.
Lemma mv_mm_T A B h : mv (mT (mm A B)) h = mv (mT B) (mv (mT A) h).
Proof. destruct A as [[? ? ?] [? ? ?] [? ? ?]], B as [[? ? ?] [? ? ?] [? ? ?]], h. vunf. f_equal; ring. Qed.
Lemma disp_symmetry st u a g p h : metric_symmetry u g -> displacement_factor st u a p (mv (mT (fst g)) h) = displacement_factor st u a (op_after g p) h.
Proof. intros M. rewrite !disp_beta. destruct (at_adp a); auto; [now rewrite M|]. cbv zeta. unfold op_after. cbn [fst]. now rewrite mv_mm_T. Qed.
Lemma phase_symmetry g p x h : dot (mv (mT (fst g)) h) (image_of p x) = dot h (image_of (op_after g p) x) - dot h (snd g).
Proof. rewrite dot_mT. unfold image_of, op_after. cbn [fst snd]. destruct g as [[[? ? ?] [? ? ?] [? ? ?]] [? ? ?]], p as [[[? ? ?] [? ? ?] [? ? ?]] [? ? ?]], x, h. cbn [fst snd]. vunf. ring. Qed.
Definition t_re := (fun ph f fpp : R => f * cos ph - fpp * sin ph).
Definition t_im := (fun ph f fpp : R => f * sin ph + fpp * cos ph).
Lemma term_re st u a g p h : metric_symmetry u g ->
  term st u (mv (mT (fst g)) h) t_re a p = cos (2 * PI * dot h (snd g)) * term st u h t_re a (op_after g p) + sin (2 * PI * dot h (snd g)) * term st u h t_im a (op_after g p).
Proof.
  intros M. unfold term, t_re, t_im. rewrite disp_symmetry, M, phase_symmetry by auto. rewrite (Rmult_minus_distr_l (2 * PI)), cos_minus, sin_minus. ring.
Qed.
Lemma term_im st u a g p h : metric_symmetry u g ->
  term st u (mv (mT (fst g)) h) t_im a p = cos (2 * PI * dot h (snd g)) * term st u h t_im a (op_after g p) + - sin (2 * PI * dot h (snd g)) * term st u h t_re a (op_after g p).
Proof.
  intros M. unfold term, t_re, t_im. rewrite disp_symmetry, M, phase_symmetry by auto. rewrite (Rmult_minus_distr_l (2 * PI)), cos_minus, sin_minus. ring.
Qed.
Lemma term_same st u a p q h trig : (trig = t_re \/ trig = t_im) -> integer_vec h -> same_op p q -> term st u h trig a p = term st u h trig a q.
Proof.
  intros T Hh [E I]. destruct (integer_dot _ _ Hh I) as (k & K). unfold term.
  assert (D : displacement_factor st u a p h = displacement_factor st u a q h) by (unfold displacement_factor; now rewrite E). rewrite D. f_equal.
  assert (P : 2 * PI * dot h (image_of p (at_pos a)) = 2 * PI * dot h (image_of q (at_pos a)) + 2 * PI * IZR k). { rewrite <- K. unfold image_of. rewrite E. destruct q as [? [? ? ?]], p as [? [? ? ?]], (at_pos a), h. cbn [fst snd] in *. set (w := mv _ _). destruct w. vunf. ring. }
  rewrite P. destruct T as [-> | ->]; unfold t_re, t_im; now rewrite cos_int, sin_int.
Qed.
Lemma sum_list_permutation (l m : list R) : Permutation l m -> sum_list l = sum_list m.
Proof. induction 1; auto; rewrite ?sum_list_cons; lra. Qed.
Lemma closed_sum st u a g h trig : (trig = t_re \/ trig = t_im) -> integer_vec h -> closed_under (st_ops st) g ->
  sum_list (map (fun p => term st u h trig a (op_after g p)) (st_ops st)) = sum_list (map (term st u h trig a) (st_ops st)).
Proof.
  intros T Hh (ops' & P & F). transitivity (sum_list (map (term st u h trig a) ops')); [|apply sum_list_permutation, Permutation_map; auto].
  rewrite <- (map_map (op_after g) (term st u h trig a)). f_equal. clear P. induction F as [|p q l m HPQ HF IH]; cbn [map]; auto. apply f_equal2; auto. now apply term_same.
Qed.
Lemma F_symmetry st u g h : metric_symmetry u g -> closed_under (st_ops st) g -> integer_vec h ->
  let th := 2 * PI * dot h (snd g) in
  F_re st u (mv (mT (fst g)) h) = cos th * F_re st u h + sin th * F_im st u h /\ F_im st u (mv (mT (fst g)) h) = cos th * F_im st u h - sin th * F_re st u h.
Proof.
  intros M C H th. unfold F_re, F_im. fold t_re t_im. unfold F_sum. split.
  - rewrite <- !sum_list_map_scal, <- sum_list_plus_map. apply sum_list_ext. intros a _. rewrite <- (closed_sum st u a g h t_re), <- (closed_sum st u a g h t_im) by auto. rewrite <- !sum_list_map_scal, <- sum_list_plus_map. apply sum_list_ext. intros p _. now apply term_re.
  - unfold Rminus. rewrite Ropp_mult_distr_l. rewrite <- !sum_list_map_scal, <- sum_list_plus_map. apply sum_list_ext. intros a _. rewrite <- (closed_sum st u a g h t_re), <- (closed_sum st u a g h t_im) by auto. rewrite <- !sum_list_map_scal, <- sum_list_plus_map. apply sum_list_ext. intros p _. now apply term_im.
Qed.
Lemma sf_inv st u hkl F : structure_factors st u hkl = Ok F -> F = map (fun h => (F_re st u h, F_im st u h)) hkl.
Proof.
  intros H. assert (K : known_types st). { intros a Ha C. rewrite pC61_unknown_type in H; [discriminate|]. intros K. now apply (K a). }
  assert (N : st_atoms st <> []). { intros E. unfold structure_factors in H. rewrite E in H. discriminate. } rewrite pC61_formula in H by auto. congruence.
Qed.
(** Reflections equivalent by a symmetry of the space group have the same intensity, with or
    without dispersion and anisotropic displacements. *)
Lemma pC61_equivalent_reflections : forall st u g h F G, metric_symmetry u g -> closed_under (st_ops st) g -> integer_vec h ->
  structure_factors st u [h; mv (mT (fst g)) h] = Ok [F; G] -> intensity G = intensity F.
Proof.
  intros st u g h F G M C H E. apply sf_inv in E. cbn [map] in E. assert (F = (F_re st u h, F_im st u h)) by congruence. assert (G = (F_re st u (mv (mT (fst g)) h), F_im st u (mv (mT (fst g)) h))) by congruence. subst. destruct (F_symmetry st u g h M C H) as [A B]. unfold intensity. cbn [fst snd]. rewrite A, B.
  set (th := 2 * PI * _). pose proof (sin2_cos2 th) as S. unfold Rsqr in S. transitivity ((sin th * sin th + cos th * cos th) * (F_re st u h ^ 2 + F_im st u h ^ 2)); [ring|]. rewrite S. ring.
Qed.
Lemma cos1_int x : cos (2 * PI * x) = 1 -> exists k, x = IZR k.
Proof.
  intros H. replace (2 * PI * x) with (2 * (PI * x)) in H by ring. rewrite cos_2a_sin in H. assert (S : sin (PI * x) = 0) by nra. apply sin_eq_0_0 in S as (k & K). exists k. pose proof PI_RGT_0. apply Rmult_eq_reg_l with PI; lra.
Qed.
(** Systematic absences: a reflection fixed by the rotation part of a symmetry whose translation
    part is not a whole number of planes has structure factor zero (glide planes, screw axes and
    centred cells). *)
Lemma pC61_absences : forall st u g h F, metric_symmetry u g -> closed_under (st_ops st) g -> integer_vec h ->
  mv (mT (fst g)) h = h -> ~ (exists k, dot h (snd g) = IZR k) ->
  structure_factors st u [h] = Ok [F] -> F = (0, 0).
Proof.
  intros st u g h F M C H Fix N E. apply sf_inv in E. cbn [map] in E. assert (F = (F_re st u h, F_im st u h)) by congruence. subst. destruct (F_symmetry st u g h M C H) as [A B]. rewrite Fix in A, B.
  set (th := 2 * PI * _) in *. assert (X : cos th <> 1) by (intros X; apply N; now apply cos1_int). pose proof (sin2_cos2 th) as S. unfold Rsqr in S. pose proof (COS_bound th) as CB.
  set (a := F_re st u h) in *. set (b := F_im st u h) in *. set (c := cos th) in *. set (s := sin th) in *. clearbody a b c s. assert (Z : (1 - c) * (a * a + b * b) = 0). { replace ((1 - c) * (a * a + b * b)) with (a * (a - c * a) + b * (b - c * b)) by ring. replace (a - c * a) with (s * b) by lra. replace (b - c * b) with (- s * a) by lra. ring. }
  assert (0 < 1 - c) by lra. assert (Z2 : a * a + b * b = 0) by (apply Rmult_integral in Z as [Z|Z]; lra). f_equal; nra.
Qed.

(** ** sin(theta)/lambda *)
Lemma triple_expand a b c g : vscale (det (M3 a b c)) g = vadd (vscale (dot g a) (cross b c)) (vadd (vscale (dot g b) (cross c a)) (vscale (dot g c) (cross a b))).
Proof. destruct a, b, c, g. vunf. f_equal; ring. Qed.
(** The resolution parameter is half the length of the reciprocal lattice vector, for any choice of
    lattice with the cell's lengths and angles. *)
Lemma pC61_sintl : forall u a b c G h, lattice_of u a b c -> dot G a = vx h -> dot G b = vy h -> dot G c = vz h ->
  sintl u h = norm G / 2.
Proof.
  intros u a b c G [h k l] (A0 & B0 & C0 & D & Na & Nb & Nc & Ebc & Eac & Eab) Ga Gb Gc. cbn [vx vy vz] in *.
  assert (Haa : dot a a = c_a u ^ 2). { rewrite <- Na. unfold norm, normsq. rewrite pow2_sqrt; [reflexivity|]. destruct a. vunf. nra. }
  assert (Hbb : dot b b = c_b u ^ 2). { rewrite <- Nb. unfold norm, normsq. rewrite pow2_sqrt; [reflexivity|]. destruct b. vunf. nra. }
  assert (Hcc : dot c c = c_c u ^ 2). { rewrite <- Nc. unfold norm, normsq. rewrite pow2_sqrt; [reflexivity|]. destruct c. vunf. nra. }
  unfold sintl. cbv zeta. cbn [vx vy vz]. set (ca := cos (c_alpha u * (PI / 180))) in *. set (cb := cos (c_beta u * (PI / 180))) in *. set (cg := cos (c_gamma u * (PI / 180))) in *. set (x := c_a u) in *. set (y := c_b u) in *. set (z := c_c u) in *.
  set (V := det (M3 a b c)) in *.
  assert (VV : V * V = x^2 * y^2 * z^2 * (1 - (ca^2 + cb^2 + cg^2) + 2 * ca * cb * cg)).
  { transitivity (dot a a * dot b b * dot c c + 2 * dot a b * dot b c * dot a c - dot a a * (dot b c)^2 - dot b b * (dot a c)^2 - dot c c * (dot a b)^2).
    - unfold V. destruct a, b, c. vunf. ring.
    - rewrite Haa, Hbb, Hcc, Ebc, Eac, Eab. ring. }
  assert (GG : V * V * dot G G = x^2 * y^2 * z^2 * ((h * h / x^2) * (1 - ca^2) + (k * k / y^2) * (1 - cb^2) + (l * l / z^2) * (1 - cg^2) + 2 * h * k * (ca * cb - cg) / (x * y) + 2 * h * l * (ca * cg - cb) / (x * z) + 2 * k * l * (cb * cg - ca) / (y * z))).
  { transitivity (dot (vscale V G) (vscale V G)); [destruct G; vunf; ring|]. unfold V at 1 2. rewrite triple_expand, Ga, Gb, Gc.
    transitivity (h^2 * (dot b b * dot c c - (dot b c)^2) + k^2 * (dot a a * dot c c - (dot a c)^2) + l^2 * (dot a a * dot b b - (dot a b)^2) + 2 * h * k * (dot b c * dot a c - dot a b * dot c c) + 2 * h * l * (dot b c * dot a b - dot a c * dot b b) + 2 * k * l * (dot a c * dot a b - dot b c * dot a a)).
    - destruct a, b, c. vunf. ring.
    - rewrite Haa, Hbb, Hcc, Ebc, Eac, Eab. field. repeat split; lra. }
  set (p1 := _ + 2 * k * l * (cb * cg - ca) / (y * z)) in *. set (p2 := 1 - (ca^2 + cb^2 + cg^2) + 2 * ca * cb * cg) in *. clearbody p1 p2 V ca cb cg.
  assert (W : 0 < x^2 * y^2 * z^2). { assert (0 < x^2) by nra. assert (0 < y^2) by nra. assert (0 < z^2) by nra. apply Rmult_lt_0_compat; auto. apply Rmult_lt_0_compat; auto. }
  assert (V0 : 0 < V * V) by (destruct (Rtotal_order V 0) as [?|[?|?]]; [nra|contradiction|nra]). assert (P2 : 0 < p2) by nra. assert (P1 : p1 = p2 * dot G G). { apply Rmult_eq_reg_l with (x^2 * y^2 * z^2); [|lra]. rewrite <- GG, VV. ring. }
  assert (G0 : 0 <= dot G G) by (destruct G; vunf; nra). rewrite P1, sqrt_mult by lra. unfold norm, normsq. assert (0 < sqrt p2) by (apply sqrt_lt_R0; lra). field. lra.
Qed.

(** ** Examples *)
(** An orthorhombic-metric cell, space group P 2_1 (b unique) without dispersion: one atom with a
    constant form factor. *)
Definition cube4 : cell6 := Cell 4 4 4 90 90 90.
Definition screw : mat * vec := (M3 (V3 (-1) 0 0) (V3 0 1 0) (V3 0 0 (-1)), V3 0 (1/2) 0).
Definition p21 (x : vec) : structure :=
  Structure [Atom "Si" x 1 2 (Uiso (1/100))] (fun _ => None) [(mI, vzero); screw] (fun t => if String.eqb t "Si" then Some ([], [], 14) else None) (fun _ => V3 (1/4) (1/4) (1/4)).
Lemma screw_metric : metric_symmetry cube4 screw.
Proof. intros [h k l]. unfold sintl. cbn [cube4 screw c_a c_b c_c c_alpha c_beta c_gamma fst]. vunf. replace (90 * (PI / 180)) with (PI / 2) by field. rewrite cos_PI2. f_equal. f_equal. field. Qed.
Lemma screw_closed x : closed_under (st_ops (p21 x)) screw.
Proof.
  exists [screw; (mI, vzero)]. split; [apply perm_swap|]. cbn [p21 st_ops map]. constructor; [|constructor; [|constructor]].
  - split; cbn [op_after screw fst snd]; [vunf; vext; cbn [vx vy vz]; ring|]. exists 0%Z, 0%Z, 0%Z. vunf. f_equal; ring.
  - split; cbn [op_after screw fst snd]; [vunf; vext; cbn [vx vy vz]; ring|]. exists 0%Z, 1%Z, 0%Z. vunf. f_equal; field.
Qed.
Lemma xC61_screw : forall x F, structure_factors (p21 x) cube4 [V3 0 1 0] = Ok [F] -> F = (0, 0).
Proof.
  intros x F. apply (pC61_absences (p21 x) cube4 screw); [apply screw_metric|apply screw_closed|exists 0%Z, 1%Z, 0%Z; reflexivity|cbn [screw fst]; vunf; f_equal; ring|].
  intros (k & K). assert (E : 1 / 2 = IZR k) by (rewrite <- K; cbn [screw snd]; vunf; lra). assert (IZR 0 < IZR k < IZR 1) as [A B] by lra. apply lt_IZR in A, B. lia.
Qed.
Lemma p21_known x : known_types (p21 x) /\ no_dispersion (p21 x) /\ st_atoms (p21 x) <> [].
Proof. split; [|split; [|discriminate]]; intros a [<-|[]]; [discriminate|reflexivity]. Qed.
Lemma xC61_computed : forall x hkl, exists F, structure_factors (p21 x) cube4 hkl = Ok F.
Proof. intros x hkl. destruct (p21_known x) as (K & _ & N). rewrite pC61_formula by auto. eauto. Qed.
Lemma xC61_lattice : lattice_of cube4 (V3 4 0 0) (V3 0 4 0) (V3 0 0 4).
Proof.
  unfold lattice_of, cube4. cbn [c_a c_b c_c c_alpha c_beta c_gamma]. replace (90 * (PI / 180)) with (PI / 2) by field. rewrite cos_PI2.
  assert (N : forall v, dot v v = 16 -> norm v = 4) by (intros v E; unfold norm, normsq; rewrite E; replace 16 with (4 * 4) by ring; apply sqrt_square; lra).
  split; [lra|]. split; [lra|]. split; [lra|]. split; [vunf; lra|]. do 3 (split; [apply N; vunf; ring|]). split; [|split]; vunf; ring.
Qed.
(** With dispersion Friedel's law fails: one plain atom at the origin and one with f'' = 1 a
    quarter of the cell away. *)
Definition anomalous : structure :=
  Structure [Atom "A" (V3 0 0 0) 1 1 NoAdp; Atom "B" (V3 (1/4) 0 0) 1 1 NoAdp] (fun t => if String.eqb t "B" then Some (0, 1) else None) [(mI, vzero)]
    (fun _ => Some ([], [], 1)) (fun _ => V3 1 1 1).
Lemma pC61_friedel_dispersion_refuted : structure_factors anomalous cube4 [V3 1 0 0; V3 (-1) 0 0] = Ok [(0, 1); (2, -1)] /\
  intensity (0, 1) <> intensity (2, -1).
Proof.
  split; [|unfold intensity; cbn [fst snd]; lra]. rewrite pC61_formula; [|intros a [<-|[<-|[]]]; discriminate|discriminate]. cbn [map]. unfold F_re, F_im, F_sum, term, anomalous, displacement_factor, form_factor, image_of, dispersion_of.
  cbn [st_atoms st_ops map at_occ at_multi at_pos at_adp at_type st_formfactor st_dispersion String.eqb Ascii.eqb Bool.eqb List.length fst snd combine]. rewrite !sum_list_cons, !sum_list_nil.
  replace (2 * PI * dot (V3 1 0 0) (vadd (mv mI (V3 0 0 0)) vzero)) with 0 by (vunf; ring). replace (2 * PI * dot (V3 (-1) 0 0) (vadd (mv mI (V3 0 0 0)) vzero)) with 0 by (vunf; ring).
  replace (2 * PI * dot (V3 1 0 0) (vadd (mv mI (V3 (1/4) 0 0)) vzero)) with (PI / 2) by (vunf; field). replace (2 * PI * dot (V3 (-1) 0 0) (vadd (mv mI (V3 (1/4) 0 0)) vzero)) with (- (PI / 2)) by (vunf; field).
  rewrite cos_neg, sin_neg, cos_PI2, sin_PI2, cos_0, sin_0. cbn [INR]. do 2 f_equal; [|f_equal]; apply f_equal2; field.
Qed.
