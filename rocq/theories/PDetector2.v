(** * Proofs about MDetector (peak tables, frames, pixel grid). *)
From Verif Require Import Vec Spec MMotion PMotion MLaue PLaue MMesh SMesh PMesh MScattering SScattering PScattering.
From Verif Require Import MStrain SStrain PStrain MBeam SBeam PBeam MPolycrystal SPolycrystal PPolycrystal.
From Verif Require Import MDetector SDetector PDetector.
Open Scope R_scope.
Local Notation len := List.length.

Lemma filter_map {A B} (f : A -> B) p l : filter p (map f l) = map f (filter (fun x => p (f x)) l).
Proof. induction l; simpl; auto. destruct (p (f a)); simpl; rewrite IHl; auto. Qed.
Lemma filter_filter {A} (p q : A -> bool) l : filter p (filter q l) = filter (fun x => q x && p x) l.
Proof. induction l; simpl; auto. destruct (q a); simpl; [destruct (p a); rewrite IHl; auto|auto]. Qed.

Definition extend (z : bool) (d : detector) (frames : Z) (r : list num) : list num :=
  add_intensity d (add_frame frames (add_hit z d r)).
Definition keepb (z : bool) (d : detector) (frames : Z) (r : list num) : bool :=
  hit_mask d (add_hit z d r) && valid_intensity (extend z d frames r).
Lemma project_inv z d pd frames out : project z d pd frames = Ok out ->
  pd_peaks out = map (extend z d frames) (filter (keepb z d frames) (pd_peaks pd)) /\
  pd_columns out = pd_columns pd ++ new_columns /\
  pd_incident out = pd_incident pd /\ pd_wavelength out = pd_wavelength pd /\ pd_axis out = pd_axis pd /\
  pd_mesh out = pd_mesh pd /\ pd_motion out = pd_motion pd /\ pd_beam out = pd_beam pd.
Proof.
  unfold project. destruct (forallb _ _); [|discriminate]. intros H; inversion H; subst; clear H. cbn.
  repeat split; auto. rewrite !filter_map, !map_map. rewrite filter_filter. reflexivity.
Qed.
Lemma project_ok z d pd frames : Forall (fun r => (25 <= len r)%nat) (pd_peaks pd) ->
  exists out, project z d pd frames = Ok out.
Proof.
  intros H. unfold project. replace (forallb _ _) with true; [eauto|]. symmetry. apply forallb_forall.
  rewrite Forall_forall in H. intros x Hx. apply Nat.leb_le. auto.
Qed.
Lemma project_narrow z d pd frames r : In r (pd_peaks pd) -> (len r < 25)%nat ->
  project z d pd frames = Err IndexError.
Proof.
  intros Hr Hl. unfold project. replace (forallb _ _) with false; auto. symmetry. apply not_true_is_false.
  intros H. rewrite forallb_forall in H. apply H in Hr. apply Nat.leb_le in Hr. lia.
Qed.

Lemma ncol_app_l a b j : (j < len a)%nat -> ncol (a ++ b) j = ncol a j.
Proof. unfold ncol. intros; now rewrite app_nth1. Qed.
Lemma ncol_app_r a b j : (len a <= j)%nat -> ncol (a ++ b) j = ncol b (j - len a).
Proof. unfold ncol. intros; now rewrite app_nth2. Qed.
Lemma extend_eq z d frames r : (21 <= len r)%nat ->
  extend z d frames r =
  let '(zd, yd, a) := get_intersection z d (row_nvec r 13) (row_nvec r 16) in
  r ++ [zd; yd; a; Fin (IZR (frame_of frames (ncol r 6))); intensity d r].
Proof.
  intros H. unfold extend, add_intensity, add_frame, add_hit.
  destruct (get_intersection z d (row_nvec r 13) (row_nvec r 16)) as [[zd yd] a].
  rewrite (ncol_app_l r [zd; yd; a] 6) by lia. rewrite <- !app_assoc. do 2 f_equal. unfold intensity. 
  rewrite !ncol_app_l by lia. reflexivity.
Qed.
Lemma keepb_fresh z d frames r zd yd a : len r = 25%nat ->
  get_intersection z d (row_nvec r 13) (row_nvec r 16) = (zd, yd, a) ->
  keepb z d frames r = det_contains d zd yd && (is_finite (intensity d r) && nlt (Fin 0) (intensity d r)).
Proof.
  intros H E. unfold keepb, valid_intensity. rewrite extend_eq by lia. unfold add_hit, hit_mask. rewrite E.
  rewrite !ncol_app_r by lia. rewrite H. reflexivity.
Qed.

(** ** contains *)
(** zd and yd are finite and inside of the closed rectangle; NaN and infinities never are. *)
Lemma pC29_contains_iff : forall d zd yd, det_contains d zd yd = true <->
  exists a b, zd = Fin a /\ yd = Fin b /\ 0 <= a <= d_zmax d /\ 0 <= b <= d_ymax d.
Proof.
  intros d zd yd. unfold det_contains. rewrite !andb_true_iff. split.
  - intros [[[H1 H2] H3] H4]. destruct zd, yd; simpl in *; try discriminate.
    apply Rleb_true in H1, H2, H3, H4. eauto 10.
  - intros (a & b & -> & -> & H1 & H2). simpl. rewrite !Rleb_true. lra.
Qed.

Lemma on_surface_iff d p : N_of d <> vzero -> built d ->
  on_surface (d_c0 d) (d_c1 d) (d_c2 d) p <->
  exists zd yd, 0 <= zd <= d_zmax d /\ 0 <= yd <= d_ymax d /\ p = surface_point (d_c0 d) (d_c1 d) (d_c2 d) zd yd.
Proof.
  intros HN Hb. destruct (detector_frame d Hb HN) as (_ & _ & _ & Hz & Hy & Pz & Py).
  rewrite Hz, Hy in *. unfold surface_point, on_surface. split.
  - intros (a & b & Ha & Hb' & ->). exists (a * dist (d_c2 d) (d_c0 d)), (b * dist (d_c1 d) (d_c0 d)).
    repeat split; try nra. unfold Rdiv. rewrite !Rmult_assoc, !Rinv_r, !Rmult_1_r by lra. reflexivity.
  - intros (zd & yd & H1 & H2 & ->). exists (zd / dist (d_c2 d) (d_c0 d)), (yd / dist (d_c1 d) (d_c0 d)).
    repeat split; auto.
    + apply Rmult_le_pos; [lra|]. left; now apply Rinv_0_lt_compat.
    + apply Rmult_le_reg_r with (dist (d_c2 d) (d_c0 d)); auto. unfold Rdiv. rewrite Rmult_assoc, Rinv_l; lra.
    + apply Rmult_le_pos; [lra|]. left; now apply Rinv_0_lt_compat.
    + apply Rmult_le_reg_r with (dist (d_c1 d) (d_c0 d)); auto. unfold Rdiv. rewrite Rmult_assoc, Rinv_l; lra.
Qed.

Lemma hit_iff z d dir src zd yd a : built d -> rectangular (d_c0 d) (d_c1 d) (d_c2 d) ->
  get_intersection z d dir src = (zd, yd, a) ->
  (det_contains d zd yd = true <->
   exists v o p, dir = nfin v /\ src = nfin o /\ hits (d_c0 d) (d_c1 d) (d_c2 d) o v p).
Proof.
  intros Hb Hr H. split.
  - intros Hc. apply pC29_contains_iff in Hc as (x & y & -> & -> & Hx & Hy).
    destruct (coordinate_finite z d dir src (Fin x) (Fin y) a Hb H) as (v & o & -> & -> & Hv & Hs); [left; eauto|].
    exists v, o, (ray_at o v (svalue d v o)). split; auto. split; auto. unfold hits. fold (N_of d).
    split; auto. split; [|exists (svalue d v o); auto].
    pose proof (N_nonzero _ _ Hv) as HN.
    apply on_surface_iff; auto. exists x, y. split; auto. split; auto.
    rewrite intersection_closed in H by auto. cbv zeta in H.
    destruct (Rltb (svalue d v o) 0) eqn:E; [discriminate|]. injection H; intros _ H2 H1. subst x y.
    apply plane_point; auto. now apply ray_in_plane.
  - intros (v & o & p & -> & -> & Hv & Hp & s & Hs & Hps). fold (N_of d) in Hv.
    pose proof (N_nonzero _ _ Hv) as HN. apply on_surface_iff in Hp as (x & y & Hx & Hy & Hp); auto.
    subst p. destruct (pC28_coordinates_exact z d v o s x y) as [a' E]; auto.
    rewrite E in H. injection H; intros; subst. apply pC29_contains_iff. eauto 10.
Qed.
Lemma hit_coords z d v o p zd yd a : built d -> rectangular (d_c0 d) (d_c1 d) (d_c2 d) ->
  hits (d_c0 d) (d_c1 d) (d_c2 d) o v p -> get_intersection z d (nfin v) (nfin o) = (zd, yd, a) ->
  exists x y, zd = Fin x /\ yd = Fin y /\ p = surface_point (d_c0 d) (d_c1 d) (d_c2 d) x y.
Proof.
  intros Hb Hr (Hv & Hp & s & Hs & Hps) H. fold (N_of d) in Hv. pose proof (N_nonzero _ _ Hv) as HN.
  apply on_surface_iff in Hp as (x & y & Hx & Hy & Hp); auto.
  subst p. destruct (pC28_coordinates_exact z d v o s x y) as [a' E]; auto.
  rewrite E in H. injection H; intros; subst. exists x, y. repeat split; auto.
Qed.

(** ** Columns by name *)
Lemma has_col pd r s j x : index_of s (pd_columns pd) = Some j -> (has pd r s x <-> nth_error r j = Some (Fin x)).
Proof. intros H. unfold has, field. rewrite H. tauto. Qed.
Lemma nth_error_ncol r j : (j < len r)%nat -> nth_error r j = Some (ncol r j).
Proof. intros H. unfold ncol. now apply nth_error_nth'. Qed.
Lemma has_ncol pd r s j x : index_of s (pd_columns pd) = Some j -> (j < len r)%nat ->
  (has pd r s x <-> ncol r j = Fin x).
Proof.
  intros H Hj. rewrite (has_col _ _ _ j) by auto. rewrite nth_error_ncol by auto. split; [intros E; now inversion E|congruence].
Qed.
Lemma has_vec_ncol pd r sx sy sz j v : index_of sx (pd_columns pd) = Some j ->
  index_of sy (pd_columns pd) = Some (j+1)%nat -> index_of sz (pd_columns pd) = Some (j+2)%nat -> (j + 2 < len r)%nat ->
  (has_vec pd r sx sy sz v <-> row_nvec r j = nfin v).
Proof.
  intros H1 H2 H3 Hl. unfold has_vec. rewrite (has_ncol _ _ _ j), (has_ncol _ _ _ (j+1)), (has_ncol _ _ _ (j+2)) by (auto; lia).
  unfold row_nvec, nfin. split.
  - intros (-> & -> & ->). reflexivity.
  - intros H. injection H; auto.
Qed.

Lemma peak_hits_iff d pd r p : pd_columns pd = column_names \/ pd_columns pd = column_names ++ new_columns ->
  (25 <= len r)%nat ->
  (peak_hits d pd r p <-> exists v o, row_nvec r 13 = nfin v /\ row_nvec r 16 = nfin o /\
     hits (d_c0 d) (d_c1 d) (d_c2 d) o v p).
Proof.
  intros Hc Hl. unfold peak_hits.
  assert (E : forall v o, has_vec pd r "K_out_x" "K_out_y" "K_out_z" v /\
                          has_vec pd r "Source_x" "Source_y" "Source_z" o <->
                          row_nvec r 13 = nfin v /\ row_nvec r 16 = nfin o).
  { intros v o. rewrite (has_vec_ncol _ _ _ _ _ 13), (has_vec_ncol _ _ _ _ _ 16);
      try lia; try tauto; destruct Hc as [-> | ->]; try reflexivity. }
  split.
  - intros (o & v & H1 & H2 & H). exists v, o. destruct (E v o) as [E1 _]. destruct E1; auto.
  - intros (v & o & H1 & H2 & H). exists o, v. destruct (E v o) as [_ E1]. destruct E1; auto.
Qed.

Lemma nmul_1_l x : nmul (Fin 1) x = x.
Proof.
  destruct x; simpl; try reflexivity; [f_equal; ring| |];
    destruct (Req_EM_T 1 0); try lra; unfold nsign_inf.
  - replace (Rltb 0 1) with true; auto. symmetry; apply Rltb_true; lra.
  - replace (Rltb 1 0) with false; auto. symmetry; apply Rltb_false; lra.
Qed.
Lemma intensity_iff d pd r i : pd_columns pd = column_names \/ pd_columns pd = column_names ++ new_columns ->
  (25 <= len r)%nat -> (intensity_is d pd r i <-> intensity d r = Fin i).
Proof.
  intros Hc Hl. unfold intensity_is, intensity, factor.
  assert (E : forall x, (has pd r "structure_factors" x <-> ncol r 5 = Fin x) /\
     (has pd r "polarization_factors" x <-> ncol r 20 = Fin x) /\ (has pd r "lorentz_factors" x <-> ncol r 19 = Fin x)).
  { intros x. split; [|split]; [apply (has_ncol pd r _ 5)|apply (has_ncol pd r _ 20)|apply (has_ncol pd r _ 19)];
      try lia; destruct Hc as [-> | ->]; reflexivity. }
  split.
  - intros (a & b & c & Ha & Hb & Hc' & ->).
    destruct (d_structure d), (d_polarization d), (d_lorentz d);
      repeat match goal with
      | H : has _ _ "structure_factors" _ |- _ => apply E in H; rewrite H
      | H : has _ _ "polarization_factors" _ |- _ => apply E in H; rewrite H
      | H : has _ _ "lorentz_factors" _ |- _ => apply E in H; rewrite H end; subst; simpl; f_equal; ring.
  - intros H.
    destruct (d_structure d), (d_polarization d), (d_lorentz d); rewrite ?nmul_1_l in H;
    repeat match goal with H : nmul _ _ = Fin _ |- _ => apply nmul_fin_inv in H as (? & ? & ? & ? & ?) end;
    subst;
    match goal with
    | H1 : ncol r 5 = Fin ?a, H2 : ncol r 20 = Fin ?b, H3 : ncol r 19 = Fin ?c |- _ => exists a, b, c
    | H1 : ncol r 5 = Fin ?a, H2 : ncol r 20 = Fin ?b |- _ => exists a, b, 1
    | H1 : ncol r 5 = Fin ?a, H3 : ncol r 19 = Fin ?c |- _ => exists a, 1, c
    | H2 : ncol r 20 = Fin ?b, H3 : ncol r 19 = Fin ?c |- _ => exists 1, b, c
    | H1 : ncol r 5 = Fin ?a |- _ => exists a, 1, 1
    | H1 : ncol r 20 = Fin ?a |- _ => exists 1, a, 1
    | H1 : ncol r 19 = Fin ?a |- _ => exists 1, 1, a
    | _ => exists 1, 1, 1
    end; repeat split; try (apply E; assumption); try reflexivity; try ring.
    inversion H. ring.
Qed.

Lemma keepb_iff z d pd frames r : built d -> rectangular (d_c0 d) (d_c1 d) (d_c2 d) ->
  pd_columns pd = column_names -> len r = 25%nat ->
  (keepb z d frames r = true <-> visible d pd r).
Proof.
  intros Hb Hr Hc Hl. destruct (get_intersection z d (row_nvec r 13) (row_nvec r 16)) as [[zd yd] a] eqn:E.
  rewrite (keepb_fresh z d frames r zd yd a) by auto. rewrite !andb_true_iff.
  pose proof (hit_iff z d (row_nvec r 13) (row_nvec r 16) zd yd a Hb Hr E) as Hh. unfold visible.
  assert (A : det_contains d zd yd = true <-> exists p, peak_hits d pd r p).
  { rewrite Hh. split.
    - intros (v & o & p & H1 & H2 & H). exists p. apply peak_hits_iff; [auto|lia|eauto].
    - intros (p & H). apply peak_hits_iff in H as (v & o & H1 & H2 & H); [|auto|lia]. eauto 10. }
  assert (B : (is_finite (intensity d r) = true /\ nlt (Fin 0) (intensity d r) = true) <->
              exists i, intensity_is d pd r i /\ 0 < i).
  { split.
    - intros [H1 H2]. destruct (intensity d r) as [i| | |] eqn:Ei; try discriminate. exists i.
      split; [apply intensity_iff; auto; lia|]. now apply Rltb_true.
    - intros (i & Hi & H0). apply intensity_iff in Hi; [|auto|lia]. rewrite Hi. split; auto. now apply Rltb_true. }
  rewrite A, B. reflexivity.
Qed.

(** ** C32 and C29: the projected table *)
Lemma firstn_app_exact {A} (a b : list A) n : len a = n -> firstn n (a ++ b) = a.
Proof. intros <-. rewrite firstn_app, Nat.sub_diag, firstn_all. simpl. now rewrite app_nil_r. Qed.

(** The projected table holds, in the original order, exactly the visible rows of
    the input (one output row per visible input row), each with five columns appended. *)
Lemma pC32_rows_are_the_visible_ones : forall z d pd frames, built d ->
  rectangular (d_c0 d) (d_c1 d) (d_c2 d) -> fresh pd ->
  exists out keep, project z d pd frames = Ok out /\
    map (firstn 25) (pd_peaks out) = filter keep (pd_peaks pd) /\
    (forall r, In r (pd_peaks pd) -> (keep r = true <-> visible d pd r)) /\
    Forall (fun r => List.length r = 30%nat) (pd_peaks out).
Proof.
  intros z d pd frames Hb Hr [Hc Hl]. rewrite Forall_forall in Hl.
  destruct (project_ok z d pd frames) as [out Ho].
  { apply Forall_forall. intros r H. rewrite Hl; auto. }
  exists out, (keepb z d frames). split; auto. apply project_inv in Ho as (Hp & Hcol & _). rewrite Hp.
  assert (E : forall r, In r (pd_peaks pd) -> firstn 25 (extend z d frames r) = r /\ len (extend z d frames r) = 30%nat).
  { intros r Hin. apply Hl in Hin. rewrite extend_eq by lia.
    destruct (get_intersection _ _ _ _) as [[zd yd] a]. split; [now apply firstn_app_exact|].
    rewrite app_length, Hin. reflexivity. }
  split; [|split].
  - rewrite map_map. rewrite <- (map_id (filter _ _)) at 2. apply map_ext_in. intros r Hin.
    apply filter_In in Hin as [Hin _]. now apply E.
  - intros r Hin. apply keepb_iff; auto.
  - apply Forall_forall. intros r' Hin. apply in_map_iff in Hin as (r & <- & Hin).
    apply filter_In in Hin as [Hin _]. now apply E.
Qed.
Lemma out_row z d pd frames out r' : fresh pd -> project z d pd frames = Ok out -> In r' (pd_peaks out) ->
  exists r zd yd a, In r (pd_peaks pd) /\ len r = 25%nat /\ keepb z d frames r = true /\
    get_intersection z d (row_nvec r 13) (row_nvec r 16) = (zd, yd, a) /\
    r' = r ++ [zd; yd; a; Fin (IZR (frame_of frames (ncol r 6))); intensity d r] /\
    pd_columns out = column_names ++ new_columns.
Proof.
  intros [Hc Hl] Ho Hin. apply project_inv in Ho as (Hp & Hcol & _). rewrite Hp in Hin.
  apply in_map_iff in Hin as (r & <- & Hin). apply filter_In in Hin as [Hin Hk].
  rewrite Forall_forall in Hl. specialize (Hl r Hin). rewrite extend_eq by lia.
  destruct (get_intersection _ _ _ _) as [[zd yd] a] eqn:E. exists r, zd, yd, a.
  rewrite Hcol, Hc. repeat split; auto.
Qed.
(** Every recorded row: its ray, followed forward, crosses the detector rectangle
    at the point with the recorded coordinates. *)
Lemma pC29_recorded_rows_hit : forall z d pd frames out r, built d ->
  rectangular (d_c0 d) (d_c1 d) (d_c2 d) -> fresh pd -> project z d pd frames = Ok out ->
  In r (pd_peaks out) -> exists zd yd,
    has out r "zd" zd /\ has out r "yd" yd /\ 0 <= zd <= dist (d_c2 d) (d_c0 d) /\ 0 <= yd <= dist (d_c1 d) (d_c0 d) /\
    peak_hits d out r (surface_point (d_c0 d) (d_c1 d) (d_c2 d) zd yd).
Proof.
  intros z d pd frames out r' Hb Hr Hf Ho Hin.
  destruct (out_row _ _ _ _ _ _ Hf Ho Hin) as (r & zd & yd & a & Hir & Hl & Hk & E & -> & Hc).
  rewrite (keepb_fresh z d frames r zd yd a) in Hk by auto. apply andb_true_iff in Hk as [Hk _].
  pose proof Hk as Hk'. apply pC29_contains_iff in Hk' as (x & y & -> & -> & Hx & Hy).
  apply (hit_iff z d _ _ _ _ _ Hb Hr E) in Hk as (v & o & p & Hv & Ho' & Hh). rewrite Hv, Ho' in E.
  destruct (hit_coords _ _ _ _ _ _ _ _ Hb Hr Hh E) as (x' & y' & Ex & Ey & Hp). inversion Ex; inversion Ey; subst x' y'.
  exists x, y. assert (HN : N_of d <> vzero) by (apply (N_nonzero d v); apply Hh).
  destruct (detector_frame d Hb HN) as (_ & _ & _ & <- & <- & _).
  split; [|split; [|split; [|split]]]; auto.
  - apply (has_col _ _ _ 25); [rewrite Hc; reflexivity|]. rewrite nth_error_app2 by lia. rewrite Hl. reflexivity.
  - apply (has_col _ _ _ 26); [rewrite Hc; reflexivity|]. rewrite nth_error_app2 by lia. rewrite Hl. reflexivity.
  - rewrite <- Hp. apply peak_hits_iff; [auto|rewrite app_length; lia|].
    exists v, o. split; [|split]; auto; unfold row_nvec in *; rewrite !ncol_app_l by lia; auto.
Qed.
Lemma pC29_missed_never_recorded : forall z d pd frames out r, built d ->
  rectangular (d_c0 d) (d_c1 d) (d_c2 d) -> fresh pd -> project z d pd frames = Ok out ->
  In r (pd_peaks pd) -> (forall p, ~ peak_hits d pd r p) -> ~ In r (map (firstn 25) (pd_peaks out)).
Proof.
  intros z d pd frames out r Hb Hr Hf Ho Hin Hmiss Habs.
  destruct (pC32_rows_are_the_visible_ones z d pd frames Hb Hr Hf) as (out' & keep & Ho' & Hm & Hk & _).
  rewrite Ho in Ho'. inversion Ho'; subst out'. rewrite Hm in Habs. apply filter_In in Habs as [_ Hk'].
  apply (Hk r Hin) in Hk' as [[p Hp] _]. now apply (Hmiss p).
Qed.
(** Intensity: the product of the enabled factors, finite and positive. *)
Lemma pC32_intensity_product : forall z d pd frames out r, fresh pd -> project z d pd frames = Ok out ->
  In r (pd_peaks out) -> exists i, has out r "intensity_factors" i /\ 0 < i /\ intensity_is d out r i.
Proof.
  intros z d pd frames out r' Hf Ho Hin.
  destruct (out_row _ _ _ _ _ _ Hf Ho Hin) as (r & zd & yd & a & Hir & Hl & Hk & E & -> & Hc).
  rewrite (keepb_fresh z d frames r zd yd a) in Hk by auto. apply andb_true_iff in Hk as [_ Hk].
  apply andb_true_iff in Hk as [H1 H2]. destruct (intensity d r) as [i| | |] eqn:Ei; try discriminate. exists i.
  split; [|split].
  - apply (has_col _ _ _ 29); [rewrite Hc; reflexivity|]. rewrite nth_error_app2 by lia. rewrite Hl. reflexivity.
  - now apply Rltb_true.
  - apply intensity_iff; auto; [rewrite app_length; lia|]. rewrite <- Ei. unfold intensity.
    rewrite !ncol_app_l by lia. reflexivity.
Qed.
(** Column names are extended and everything else in the dictionary is passed on. *)
Lemma pC32_dictionary_extended : forall z d pd frames out, project z d pd frames = Ok out ->
  pd_columns out = pd_columns pd ++ ["zd"; "yd"; "incident_angle"; "frame"; "intensity_factors"]%string /\
  pd_incident out = pd_incident pd /\ pd_wavelength out = pd_wavelength pd /\ pd_axis out = pd_axis pd /\
  pd_mesh out = pd_mesh pd /\ pd_motion out = pd_motion pd /\ pd_beam out = pd_beam pd.
Proof. intros z d pd frames out H. apply project_inv in H as (_ & H). exact H. Qed.
(** The sign of zero denominators is never observable in a projected table. *)
Lemma pC32_no_signed_zero : forall z d pd frames, built d ->
  rectangular (d_c0 d) (d_c1 d) (d_c2 d) -> fresh pd -> project z d pd frames = project false d pd frames.
Proof.
  intros z d pd frames Hb Hr [Hc Hl]. rewrite Forall_forall in Hl. unfold project.
  destruct (forallb _ (pd_peaks pd)); auto. f_equal. f_equal. cbv zeta.
  rewrite !filter_map, !map_map, !filter_filter.
  change (map (extend z d frames) (filter (keepb z d frames) (pd_peaks pd)) =
          map (extend false d frames) (filter (keepb false d frames) (pd_peaks pd))).
  assert (Ef : filter (keepb z d frames) (pd_peaks pd) = filter (keepb false d frames) (pd_peaks pd)).
  { apply filter_ext_in. intros r Hin. specialize (Hl r Hin).
    pose proof (keepb_iff z d pd frames r Hb Hr Hc Hl). pose proof (keepb_iff false d pd frames r Hb Hr Hc Hl).
    destruct (keepb z d frames r), (keepb false d frames r); auto; exfalso; intuition congruence. }
  rewrite Ef. apply map_ext_in. intros r Hin. apply filter_In in Hin as [Hin Hk]. specialize (Hl r Hin).
  apply (keepb_iff false d pd) in Hk as [[p Hp] _]; auto. apply peak_hits_iff in Hp as (v & o & Hv & Ho & Hh & _); [|auto|lia].
  rewrite !extend_eq by lia. rewrite Hv, Ho, !intersection_closed by auto. reflexivity.
Qed.

(** C32. Projecting such a table never fails, whatever the detector (also for skew or
    collinear corners) and the number of frames. *)
Lemma pC32_never_fails : forall z d pd frames, fresh pd -> exists out, project z d pd frames = Ok out.
Proof.
  intros z d pd frames (_ & Hl). apply project_ok. rewrite Forall_forall in *. intros r H. rewrite (Hl r H). lia.
Qed.

(** Tables diffract returns have the layout assumed above. *)
Lemma pC32_diffract_tables_fresh : forall z x p b m lo hi det pd,
  fst (diffract z x p b m lo hi det) = Ok pd -> fresh pd.
Proof.
  intros z x p b m lo hi det pd H. destruct (diffract z x p b m lo hi det) as [r p'] eqn:E. cbn in H. subst r.
  split; [eapply columns_of; eauto|]. apply Forall_forall. intros r Hr. apply In_nth_error in Hr as (k & Hk).
  destruct (peaks_iff _ _ _ _ _ _ _ _ _ _ _ _ E Hk) as (i & ph & e & h & sf & t & G0 & c & v & A). 
  destruct A as (_ & _ & _ & _ & _ & _ & _ & _ & ->). reflexivity.
Qed.
