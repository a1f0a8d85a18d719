(** * Structure factors (C61). *)
From Verif Require Import Vec Spec MMotion MLaue MMesh MScattering MBeam MPolycrystal MStructure SStructure.
From Verif Require Import PLaue PMesh PRender PPolycrystal.
From Coq Require Import String Permutation Ratan.
Open Scope R_scope.
Local Notation len := List.length.

(** ** Rows as functions of the reflection *)
Lemma zip2_map {A} f (g h : A -> R) l : zip2 f (map g l) (map h l) = map (fun x => f (g x) (h x)) l.
Proof. unfold zip2. induction l; cbn [map combine fst snd]; auto. now rewrite IHl. Qed.
Lemma repeat_map {A B} (c : B) (l : list A) : repeat c (len l) = map (fun _ => c) l.
Proof. induction l; cbn; congruence. Qed.
Lemma sum0_map {A B} (g : B -> A -> R) (l : list A) (xs : list B) : sum0 (len l) (map (fun x => map (g x) l) xs) = map (fun a => sum_list (map (fun x => g x a) xs)) l.
Proof.
  induction xs as [|x xs IH]; unfold sum0 in *; cbn [map fold_right].
  - rewrite repeat_map. apply map_ext. intros. now rewrite sum_list_nil.
  - rewrite IH, zip2_map. apply map_ext. intros. now rewrite sum_list_cons.
Qed.
Lemma fold_map {A B} (g : B -> A -> R) (l : list A) (xs : list B) : forall g0, fold_left (zip2 Rplus) (map (fun x => map (g x) l) xs) (map g0 l) = map (fun a => g0 a + sum_list (map (fun x => g x a) xs)) l.
Proof.
  induction xs as [|x xs IH]; intros g0; cbn [map fold_left].
  - apply map_ext. intros. rewrite sum_list_nil. lra.
  - rewrite zip2_map, IH. apply map_ext. intros. rewrite sum_list_cons. lra.
Qed.
Lemma sum_filter_split {A} (f : A -> R) (p : A -> bool) l : sum_list (map f (filter (fun a => negb (p a)) l)) + sum_list (map f (filter p l)) = sum_list (map f l).
Proof. induction l as [|a l IH]; cbn [filter map]; [rewrite sum_list_nil; lra|]. destruct (p a); cbn [negb map]; rewrite !sum_list_cons; lra. Qed.
Lemma combine_map2 {A B C} (f : A -> B) (g : A -> C) l : combine (map f l) (map g l) = map (fun a => (f a, g a)) l.
Proof. induction l; cbn; congruence. Qed.
Definition coefs (st : structure) (t : string) : list R * list R * R := match st_formfactor st t with Some c => c | None => ([], [], 0) end.
Lemma ff_rows st stl : known_types st -> st_atoms st <> [] ->
  form_factors_batch (st_formfactor st) (map at_type (st_atoms st)) stl = Ok (map (fun a => map (form_factor st (at_type a)) stl) (st_atoms st)).
Proof.
  intros K N. unfold form_factors_batch.
  assert (T : traverse (fun t => match st_formfactor st t with Some c => Ok c | None => Err KeyError end) (map at_type (st_atoms st)) = Ok (map (fun a => coefs st (at_type a)) (st_atoms st))).
  { clear N. unfold known_types in K. induction (st_atoms st) as [|a l IH]; cbn [map traverse]; auto. unfold coefs at 1. destruct (st_formfactor st (at_type a)) as [c|] eqn:E; [|exfalso; apply (K a); [now left|auto]]. cbn [bind]. rewrite IH by (intros; apply K; now right). reflexivity. }
  rewrite T. cbn [bind]. destruct (st_atoms st) as [|a0 l0] eqn:E; [congruence|]. rewrite <- E in *. destruct (map (fun a => coefs st (at_type a)) (st_atoms st)) eqn:E2; [rewrite E in E2; discriminate|]. rewrite <- E2, map_map. f_equal. apply map_ext_in. intros a Ha.
  specialize (K a Ha). unfold form_factor_row, coefs, form_factor. destruct (st_formfactor st (at_type a)) as [[[x y] c]|]; [|congruence]. apply map_ext. intros s. do 2 f_equal. apply map_ext. intros [p1 q1]. cbn [fst snd]. do 2 f_equal. ring.
Qed.
Lemma disp_beta st u a op h : displacement_factor st u a op h = match at_adp a with
  | Uiso v => exp (- (8 * PI^2 * v * (sintl u h)^2))
  | Uani a1 a2 a3 a4 a5 a6 =>
      let g := mv (mT (fst op)) h in exp (- dot g (mv (uij_to_betaij (st_cellstar st u) a1 a2 a3 a4 a5 a6) g))
  | NoAdp => 1 end.
Proof.
  unfold displacement_factor. destruct (at_adp a); auto. cbv zeta. generalize (mv (mT (fst op)) h) (st_cellstar st u). intros g cs. f_equal. f_equal.
  unfold uij_to_betaij. vdes. vunf. ring.
Qed.
Lemma iso_rows_map st u hkl a (Ha : is_uani a = false) : iso_rows st hkl (sintl_batch u hkl) (a, map (form_factor st (at_type a)) (sintl_batch u hkl)) =
  (map (fun h => sum_list (map (term st u h (fun ph f fpp => f * cos ph - fpp * sin ph) a) (st_ops st))) hkl,
   map (fun h => sum_list (map (term st u h (fun ph f fpp => f * sin ph + fpp * cos ph) a) (st_ops st))) hkl).
Proof.
  unfold iso_rows, phase_rows. cbv zeta. rewrite !map_map.
  rewrite (map_ext (fun x => map cos (map (fun h => 2 * PI * dot h (vadd (mv (fst x) (at_pos a)) (snd x))) hkl)) (fun x => map (fun h => cos (2 * PI * dot h (image_of x (at_pos a)))) hkl)) by (intros; rewrite map_map; reflexivity).
  rewrite (map_ext (fun x => map sin (map (fun h => 2 * PI * dot h (vadd (mv (fst x) (at_pos a)) (snd x))) hkl)) (fun x => map (fun h => sin (2 * PI * dot h (image_of x (at_pos a)))) hkl)) by (intros; rewrite map_map; reflexivity).
  rewrite (sum0_map (fun x h => cos (2 * PI * dot h (image_of x (at_pos a))))), (sum0_map (fun x h => sin (2 * PI * dot h (image_of x (at_pos a))))).
  assert (D : exists T, (forall op h, displacement_factor st u a op h = T h) /\ expij_row (sintl_batch u hkl) a = map T hkl).
  { assert (DB := fun op h => disp_beta st u a op h). unfold expij_row. destruct (at_adp a) as [v| |] eqn:E.
    - exists (fun h => exp (- (8 * PI^2 * v * (sintl u h)^2))). split; auto. unfold sintl_batch. rewrite map_map. apply map_ext. intros h. f_equal. ring.
    - unfold is_uani in Ha. rewrite E in Ha. discriminate.
    - exists (fun _ => 1). split; auto. unfold sintl_batch. rewrite map_length. apply repeat_map. }
  destruct D as (T & D & ->). unfold sintl_batch. destruct (dispersion_of st (at_type a)) as [fp fpp] eqn:DS. rewrite !map_map, !zip2_map.
  unfold term. rewrite DS. cbn [fst snd]. fold (site_pop st a).
  f_equal; apply map_ext; intros h.
  - symmetry. rewrite (sum_list_ext _ (fun op => site_pop st a * T h * (form_factor st (at_type a) (sintl u h) + fp) * cos (2 * PI * dot h (image_of op (at_pos a))) + - (site_pop st a * T h * fpp) * sin (2 * PI * dot h (image_of op (at_pos a))))) by (intros; rewrite D; ring).
    rewrite sum_list_plus_map, !sum_list_map_scal. ring.
  - symmetry. rewrite (sum_list_ext _ (fun op => site_pop st a * T h * (form_factor st (at_type a) (sintl u h) + fp) * sin (2 * PI * dot h (image_of op (at_pos a))) + (site_pop st a * T h * fpp) * cos (2 * PI * dot h (image_of op (at_pos a))))) by (intros; rewrite D; ring).
    rewrite sum_list_plus_map, !sum_list_map_scal. ring.
Qed.
Lemma quad_form R B h : dot (mv (mT (mm R (mm B (mT R)))) h) h = dot (mv (mT R) h) (mv B (mv (mT R) h)).
Proof. destruct R as [[? ? ?] [? ? ?] [? ? ?]], B as [[? ? ?] [? ? ?] [? ? ?]], h. vunf. ring. Qed.
Lemma ani_rows_map st u hkl a (Ha : is_uani a = true) : ani_rows st u hkl (a, map (form_factor st (at_type a)) (sintl_batch u hkl)) =
  (map (fun h => sum_list (map (term st u h (fun ph f fpp => f * cos ph - fpp * sin ph) a) (st_ops st))) hkl,
   map (fun h => sum_list (map (term st u h (fun ph f fpp => f * sin ph + fpp * cos ph) a) (st_ops st))) hkl).
Proof.
  unfold is_uani in Ha. destruct (at_adp a) as [|a1 a2 a3 a4 a5 a6|] eqn:E; try discriminate. unfold ani_rows, phase_rows, sintl_batch. cbv zeta. rewrite E, !map_map.
  set (beta := uij_to_betaij _ _ _ _ _ _ _). destruct (dispersion_of st (at_type a)) as [fp fpp] eqn:DS.
  rewrite combine_map2, !map_map. cbn [fst snd].
  rewrite (map_ext _ (fun op => map (fun h => displacement_factor st u a op h * (cos (2 * PI * dot h (image_of op (at_pos a))) * (form_factor st (at_type a) (sintl u h) + fp) - sin (2 * PI * dot h (image_of op (at_pos a))) * fpp)) hkl)).
  2:{ intros op. rewrite !map_map, !zip2_map. apply map_ext. intros h. rewrite disp_beta, E. fold beta. cbv zeta. rewrite quad_form. reflexivity. }
  rewrite (map_ext (fun x => zip2 Rmult _ (zip2 Rplus _ _)) (fun op => map (fun h => displacement_factor st u a op h * (sin (2 * PI * dot h (image_of op (at_pos a))) * (form_factor st (at_type a) (sintl u h) + fp) + cos (2 * PI * dot h (image_of op (at_pos a))) * fpp)) hkl)).
  2:{ intros op. rewrite !map_map, !zip2_map. apply map_ext. intros h. rewrite disp_beta, E. fold beta. cbv zeta. rewrite quad_form. reflexivity. }
  rewrite (sum0_map (fun op h => displacement_factor st u a op h * (cos (2 * PI * dot h (image_of op (at_pos a))) * (form_factor st (at_type a) (sintl u h) + fp) - sin (2 * PI * dot h (image_of op (at_pos a))) * fpp))).
  rewrite (sum0_map (fun op h => displacement_factor st u a op h * (sin (2 * PI * dot h (image_of op (at_pos a))) * (form_factor st (at_type a) (sintl u h) + fp) + cos (2 * PI * dot h (image_of op (at_pos a))) * fpp))).
  rewrite !map_map. unfold term. rewrite DS. cbn [fst snd]. fold (site_pop st a).
  f_equal; apply map_ext; intros h; rewrite <- sum_list_map_scal; apply sum_list_ext; intros; ring.
Qed.
(** Each reflection gets the textbook sum for that reflection alone, whatever else is in the batch
    and however the atoms are divided into isotropic and anisotropic ones. *)
Lemma pC61_formula : forall st u hkl, known_types st -> st_atoms st <> [] ->
  structure_factors st u hkl = Ok (map (fun h => (F_re st u h, F_im st u h)) hkl).
Proof.
  intros st u hkl K N. unfold structure_factors. cbv zeta. rewrite ff_rows by auto. cbn [bind]. f_equal.
  replace (combine (st_atoms st) _) with (map (fun a => (a, map (form_factor st (at_type a)) (sintl_batch u hkl))) (st_atoms st)) by (rewrite <- combine_map2, map_id; reflexivity).
  set (row := fun a => (a, map (form_factor st (at_type a)) (sintl_batch u hkl))).
  assert (FM : forall p l, filter (fun af : atom * list R => p (fst af)) (map row l) = map row (filter p l)).
  { intros p l. induction l as [|b l IH]; cbn [map filter]; auto. cbn [fst row]. unfold row at 1. cbn [fst]. destruct (p b); cbn [map]; now rewrite IH. }
  rewrite (FM (fun a => negb (is_uani a))), (FM is_uani), !map_map.
  set (tr := fun ph f fpp => f * cos ph - fpp * sin ph). set (ti := fun ph f fpp => f * sin ph + fpp * cos ph).
  assert (I1 : forall a, In a (filter (fun a => negb (is_uani a)) (st_atoms st)) -> iso_rows st hkl (sintl_batch u hkl) (row a) = (map (fun h => sum_list (map (term st u h tr a) (st_ops st))) hkl, map (fun h => sum_list (map (term st u h ti a) (st_ops st))) hkl)).
  { intros a Ha. apply filter_In in Ha as [_ Ha]. apply iso_rows_map. now destruct (is_uani a). }
  assert (I2 : forall a, In a (filter is_uani (st_atoms st)) -> ani_rows st u hkl (row a) = (map (fun h => sum_list (map (term st u h tr a) (st_ops st))) hkl, map (fun h => sum_list (map (term st u h ti a) (st_ops st))) hkl)).
  { intros a Ha. apply filter_In in Ha as [_ Ha]. now apply ani_rows_map. }
  rewrite (map_ext_in (fun x => fst (iso_rows st hkl (sintl_batch u hkl) (row x))) (fun a => map (fun h => sum_list (map (term st u h tr a) (st_ops st))) hkl)) by (intros a Ha; now rewrite I1).
  rewrite (map_ext_in (fun x => snd (iso_rows st hkl (sintl_batch u hkl) (row x))) (fun a => map (fun h => sum_list (map (term st u h ti a) (st_ops st))) hkl)) by (intros a Ha; now rewrite I1).
  rewrite (map_ext_in (fun x => fst (ani_rows st u hkl (row x))) (fun a => map (fun h => sum_list (map (term st u h tr a) (st_ops st))) hkl)) by (intros a Ha; now rewrite I2).
  rewrite (map_ext_in (fun x => snd (ani_rows st u hkl (row x))) (fun a => map (fun h => sum_list (map (term st u h ti a) (st_ops st))) hkl)) by (intros a Ha; now rewrite I2).
  rewrite (sum0_map (fun a h => sum_list (map (term st u h tr a) (st_ops st)))), (sum0_map (fun a h => sum_list (map (term st u h ti a) (st_ops st)))).
  rewrite (fold_map (fun a h => sum_list (map (term st u h tr a) (st_ops st)))), (fold_map (fun a h => sum_list (map (term st u h ti a) (st_ops st)))), combine_map2.
  apply map_ext. intros h. rewrite (sum_filter_split (fun a => sum_list (map (term st u h tr a) (st_ops st)))), (sum_filter_split (fun a => sum_list (map (term st u h ti a) (st_ops st)))). reflexivity.
Qed.
(** Batches do not interact: splitting the reflections in any way gives the same answers. *)
Lemma pC61_batching : forall st u hkl1 hkl2, known_types st -> st_atoms st <> [] ->
  structure_factors st u (hkl1 ++ hkl2) =
  bind (structure_factors st u hkl1) (fun F1 => bind (structure_factors st u hkl2) (fun F2 => Ok (F1 ++ F2)%list)).
Proof. intros. rewrite !pC61_formula by auto. cbn [bind]. now rewrite map_app. Qed.
(** Atom types without a form factor are refused; otherwise one pair per reflection. *)
Lemma pC61_unknown_type : forall st u hkl, ~ known_types st -> structure_factors st u hkl = Err KeyError.
Proof.
  intros st u hkl K. unfold structure_factors, form_factors_batch. cbv zeta. replace (traverse _ _) with (@Err (list (list R * list R * R)) KeyError); [reflexivity|]. symmetry. unfold known_types in K. induction (st_atoms st) as [|a l IH]; [exfalso; apply K; intros a []|].
  cbn [map traverse]. destruct (st_formfactor st (at_type a)) eqn:E; [|reflexivity]. cbn [bind]. rewrite IH; [reflexivity|]. intros H. apply K. intros b [<-|Hb]; [congruence|auto].
Qed.
Lemma pC61_shape : forall st u hkl F, structure_factors st u hkl = Ok F -> List.length F = List.length hkl.
Proof.
  intros st u hkl F H. assert (K : known_types st). { intros a Ha C. rewrite pC61_unknown_type in H; [discriminate|]. intros K. now apply (K a). }
  assert (N : st_atoms st <> []). { intros E. unfold structure_factors in H. rewrite E in H. discriminate. } rewrite pC61_formula in H by auto. assert (F = map (fun h => (F_re st u h, F_im st u h)) hkl) by congruence. subst. apply map_length.
Qed.

(** ** Friedel's law *)
Lemma dot_neg_l a b : dot (vneg a) b = - dot a b. Proof. destruct a, b. vunf. ring. Qed.
Lemma sintl_neg u h : sintl u (vneg h) = sintl u h.
Proof. unfold sintl. cbv zeta. destruct h as [x y z]. cbn [vneg vx vy vz]. do 2 f_equal. unfold Rdiv. ring. Qed.
Lemma disp_neg st u a op h : displacement_factor st u a op (vneg h) = displacement_factor st u a op h.
Proof. rewrite !disp_beta. destruct (at_adp a); auto; [now rewrite sintl_neg|]. cbv zeta. f_equal. f_equal. set (B := uij_to_betaij _ _ _ _ _ _ _). clearbody B. destruct op as [[[? ? ?] [? ? ?] [? ? ?]] t], B as [[? ? ?] [? ? ?] [? ? ?]], h. cbn [fst]. vunf. ring. Qed.
Lemma F_sum_scal st u h trig h' trig' c : (forall a op, In a (st_atoms st) -> term st u h trig a op = c * term st u h' trig' a op) -> F_sum st u h trig = c * F_sum st u h' trig'.
Proof. intros H. unfold F_sum. rewrite <- sum_list_map_scal. apply sum_list_ext. intros a Ha. rewrite <- sum_list_map_scal. apply sum_list_ext. auto. Qed.
(** Without anomalous absorption F(-h) is the complex conjugate of F(h). *)
Lemma pC61_friedel : forall st u h F G, no_dispersion st -> structure_factors st u [h; vneg h] = Ok [F; G] ->
  fst G = fst F /\ snd G = - snd F /\ intensity G = intensity F.
Proof.
  intros st u h F G D H. assert (K : known_types st). { intros a Ha C. rewrite pC61_unknown_type in H; [discriminate|]. intros K. now apply (K a). }
  assert (N : st_atoms st <> []). { intros E. unfold structure_factors in H. rewrite E in H. discriminate. } rewrite pC61_formula in H by auto. cbn [map] in H. assert (F = (F_re st u h, F_im st u h)) by congruence. assert (G = (F_re st u (vneg h), F_im st u (vneg h))) by congruence. subst. unfold intensity. cbn [fst snd].
  assert (A : F_re st u (vneg h) = 1 * F_re st u h). { apply F_sum_scal. intros a op Ha. unfold term. rewrite disp_neg, sintl_neg, dot_neg_l, (D a Ha), <- Ropp_mult_distr_r, cos_neg, sin_neg. ring. }
  assert (B : F_im st u (vneg h) = -1 * F_im st u h). { apply F_sum_scal. intros a op Ha. unfold term. rewrite disp_neg, sintl_neg, dot_neg_l, (D a Ha), <- Ropp_mult_distr_r, cos_neg, sin_neg. ring. }
  rewrite A, B. repeat split; ring.
Qed.
