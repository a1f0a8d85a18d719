(** * The same experiment set up elsewhere: the properties (C89). *)
From Verif Require Import Vec Spec MMotion MLaue MMesh MScattering MStrain MBeam SBeam MPolycrystal SPolycrystal MDetector MClip MRender SRender SNano SFrame.
From Verif Require Import PMotion PLaue PMesh PBeam PStrain PPolycrystal PPolycrystal2 PPolycrystal3 PDetector PDetector2 PDetector3 PRender PRender2 PRender3 PEvents PEnd2 PFrame PFrame2 PFrame3.
From Verif Require Import SDetector.
Open Scope list_scope. Open Scope R_scope.

Lemma row24_fin r G K S l po v ta sc k : List.length r = 10%nat ->
  let row := row24 r G K S l po v ta sc ++ [k] in
  List.length row = 25%nat /\ row_nvec row 10 = nfin G /\ row_nvec row 13 = nfin K /\ row_nvec row 16 = nfin S /\
  row_nvec row 7 = nfin (rvec r 7).
Proof.
  intros L. do 10 (destruct r as [|? r]; [discriminate L|]). destruct r; [|discriminate L]. cbv zeta. unfold row24. repeat split.
Qed.
Lemma index_nth s l j : index_of s l = Some j -> nth_error l j = Some s.
Proof.
  revert j. induction l as [|x l IH]; intros j H; [discriminate|]. cbn [index_of] in H. destruct (String.eqb_spec s x) as [->|_].
  - injection H as <-. reflexivity.
  - destruct (index_of s l) as [i|]; [|discriminate]. injection H as <-. cbn [nth_error]. now apply IH.
Qed.
Lemma scalar_column c j cols : cols = column_names \/ cols = column_names ++ new_columns -> index_of c cols = Some j -> ~ In c vector_columns -> (j < 7 \/ 19 <= j)%nat.
Proof.
  intros C H N. destruct (le_lt_dec 19 j) as [|L]; [now right|]. destruct (le_lt_dec 7 j) as [L'|]; [|now left]. exfalso. apply N. apply index_nth in H.
  assert (E : nth_error cols j = nth_error column_names j).
  { destruct C as [-> | ->]; [reflexivity|]. apply nth_error_app1. cbn. lia. }
  rewrite E in H. clear E C N. do 7 (destruct j as [|j]; [lia|]).
  do 12 (destruct j as [|j]; [cbn in H; injection H as <-; cbn; tauto|]). lia.
Qed.
Lemma nth_turn A t r j : (j < 7 \/ 19 <= j)%nat -> nth_error (turn A t r) j = nth_error r j.
Proof.
  intros J. destruct (le_lt_dec (List.length r) j) as [L|L].
  - rewrite !(proj2 (nth_error_None _ _)); auto. now rewrite turn_length.
  - rewrite !nth_error_ncol by (rewrite ?turn_length; lia). f_equal. now apply turn_ncol.
Qed.
Lemma turn_v A t r v : (19 <= List.length r)%nat ->
  (row_nvec r 7 = nfin v -> row_nvec (turn A t r) 7 = nfin (mv A v)) /\ (row_nvec r 10 = nfin v -> row_nvec (turn A t r) 10 = nfin (mv A v)).
Proof.
  intros L. unfold turn. destruct (Nat.leb_spec 19 (List.length r)) as [_|]; [|lia].
  do 19 (destruct r as [|? r]; [cbn in L; lia|]). clear L. unfold row_nvec, ncol, nfin. split; intros E; cbn in E.
  - assert (n6 = Fin (vx v) /\ n7 = Fin (vy v) /\ n8 = Fin (vz v)) as (-> & -> & ->) by (repeat split; congruence).
    change (fvec _ 7) with (V3 (vx v) (vy v) (vz v)). replace (V3 (vx v) (vy v) (vz v)) with v by (destruct v; reflexivity). reflexivity.
  - assert (n9 = Fin (vx v) /\ n10 = Fin (vy v) /\ n11 = Fin (vz v)) as (-> & -> & ->) by (repeat split; congruence).
    change (fvec _ 10) with (V3 (vx v) (vy v) (vz v)). replace (V3 (vx v) (vy v) (vz v)) with v by (destruct v; reflexivity). reflexivity.
Qed.
Definition all_fin (r : list num) : Prop :=
  (25 <= List.length r)%nat /\ (exists g, row_nvec r 7 = nfin g) /\ (exists g, row_nvec r 10 = nfin g) /\ (exists v, row_nvec r 13 = nfin v) /\ (exists o, row_nvec r 16 = nfin o).
Lemma nvec_has pd r sx sy sz j v : index_of sx (pd_columns pd) = Some j -> index_of sy (pd_columns pd) = Some (j + 1)%nat ->
  index_of sz (pd_columns pd) = Some (j + 2)%nat -> (j + 2 < List.length r)%nat -> row_nvec r j = nfin v -> has_vec pd r sx sy sz v.
Proof.
  intros H1 H2 H3 L E. unfold row_nvec, nfin in E. unfold has_vec. rewrite !(has_ncol _ _ _ _ _ H1), !(has_ncol _ _ _ _ _ H2), !(has_ncol _ _ _ _ _ H3) by lia.
  repeat split; congruence.
Qed.
Lemma turn_moved A t pd pd2 r : pd_columns pd = column_names \/ pd_columns pd = column_names ++ new_columns -> pd_columns pd2 = pd_columns pd ->
  all_fin r -> moved_row A t pd pd2 r (turn A t r).
Proof.
  intros C C2 (L & (g0 & E0) & (g & Eg) & (k & Ek) & (s & Es)). split.
  - intros c N. unfold field. rewrite C2. destruct (index_of c (pd_columns pd)) as [j|] eqn:J; [|reflexivity].
    apply nth_turn. eapply scalar_column; eauto.
  - exists g0, g, k, s.
    assert (L2 : (25 <= List.length (turn A t r))%nat) by (rewrite turn_length; exact L).
    assert (I : forall q, q = column_names \/ q = column_names ++ new_columns -> index_of "G0_x"%string q = Some 7%nat /\ index_of "G0_y"%string q = Some 8%nat /\ index_of "G0_z"%string q = Some 9%nat /\
      index_of "Gx"%string q = Some 10%nat /\ index_of "Gy"%string q = Some 11%nat /\ index_of "Gz"%string q = Some 12%nat /\
      index_of "K_out_x"%string q = Some 13%nat /\ index_of "K_out_y"%string q = Some 14%nat /\ index_of "K_out_z"%string q = Some 15%nat /\
      index_of "Source_x"%string q = Some 16%nat /\ index_of "Source_y"%string q = Some 17%nat /\ index_of "Source_z"%string q = Some 18%nat).
    { intros q [-> | ->]; repeat split. }
    pose proof (I _ C) as I1. assert (C' : pd_columns pd2 = column_names \/ pd_columns pd2 = column_names ++ new_columns) by (rewrite C2; exact C).
    pose proof (I _ C') as I2. destruct I1 as (A1 & A2 & A3 & A4 & A5 & A6 & A7 & A8 & A9 & A10 & A11 & A12).
    destruct I2 as (B1 & B2 & B3 & B4 & B5 & B6 & B7 & B8 & B9 & B10 & B11 & B12).
    split; [apply (nvec_has _ _ _ _ _ 7); auto; lia|]. split; [apply (nvec_has _ _ _ _ _ 7); auto; [lia|apply (turn_v A t r g0); auto; lia]|].
    split; [apply (nvec_has _ _ _ _ _ 10); auto; lia|]. split; [apply (nvec_has _ _ _ _ _ 10); auto; [lia|apply (turn_v A t r g); auto; lia]|].
    split; [apply (nvec_has _ _ _ _ _ 13); auto; lia|]. split; [apply (nvec_has _ _ _ _ _ 13); auto; [lia|apply turn_dir; auto; lia]|].
    split; [apply (nvec_has _ _ _ _ _ 16); auto; lia|]. apply (nvec_has _ _ _ _ _ 16); auto; [lia|apply turn_src; auto; lia].
Qed.
Lemma Forall2_map_r {X Y} (P : X -> Y -> Prop) (f : X -> Y) l : (forall x, In x l -> P x (f x)) -> Forall2 P l (map f l).
Proof. induction l as [|x l IH]; intros H; cbn [map]; constructor; [apply H; now left|apply IH; intros; apply H; now right]. Qed.
Lemma F2_impl {X Y} (P Q : X -> Y -> Prop) l l2 : (forall x y, P x y -> Q x y) -> Forall2 P l l2 -> Forall2 Q l l2.
Proof. intros H F. induction F; constructor; auto. Qed.
Lemma full_fin z b m r' c v k : List.length r' = 10%nat -> good_row (full_row z b m r' c v ++ [k]) /\ all_fin (full_row z b m r' c v ++ [k]).
Proof.
  intros L. unfold full_row. cbv zeta.
  match goal with |- context [row24 ?r ?G ?K ?S ?l ?po ?v ?ta ?sc] => destruct (row24_fin r G K S l po v ta sc k L) as (E1 & E2 & E3 & E4 & E5) end.
  split; [split; [exact E1|]; split; eexists; eauto|]. split; [rewrite E1; lia|]. repeat split; eexists; eauto.
Qed.
Lemma choice_cone A t z d d2 : is_rotation A -> moved_choice A t d d2 -> same_cone A t (cone_arg z d) (cone_arg z d2).
Proof. intros HA H. destruct d as [d|], d2 as [d2|]; cbn in *; auto. intros. now apply cone_turn. Qed.
Lemma diffract_columns z x p b m lo hi c pd : fst (diffract z x p b m lo hi c) = Ok pd -> pd_columns pd = column_names.
Proof. intros H. exact (proj1 (pC32_diffract_tables_fresh z x p b m lo hi c pd H)). Qed.

(** ** Properties *)
(** The same experiment somewhere else: the same exception, or the same table with its vectors turned
    along; the sample afterwards is again the moved copy. *)
Lemma pC89_same_table : forall A t z x p p2 b b2 m m2 lo hi d d2, is_rotation A ->
  moved_sample A t p p2 -> moved_beam A t b b2 -> moved_motion A t m m2 -> moved_choice A t d d2 ->
  let out := diffract z x p b m lo hi (cone_arg z d) in let out2 := diffract z x p2 b2 m2 lo hi (cone_arg z d2) in
  (forall e, fst out2 = Err e <-> fst out = Err e) /\
  (forall pd, fst out = Ok pd -> exists pd2, fst out2 = Ok pd2 /\ Forall2 (moved_row A t pd pd2) (pd_peaks pd) (pd_peaks pd2)) /\
  moved_sample A t (snd out) (snd out2).
Proof.
  intros A t z x p p2 b b2 m m2 lo hi d d2 HA P B M C. cbv zeta.
  destruct (diffract_turn A t HA z x p p2 b b2 m m2 lo hi _ _ P B M (choice_cone A t z d d2 HA C)) as (S & E & O). cbv zeta in *.
  split; [|split; [|exact S]].
  - intros e. split; [|apply E]. intros H. destruct (fst (diffract z x p b m lo hi (cone_arg z d))) as [pd|e'] eqn:F.
    + destruct (O pd eq_refl) as (pd2 & F2 & _). rewrite H in F2. discriminate.
    + rewrite (E e' eq_refl) in H. exact H.
  - intros pd F. destruct (O pd F) as (pd2 & F2 & R & G). exists pd2. split; [exact F2|]. rewrite R. apply Forall2_map_r. intros r Hr.
    rewrite Forall_forall in G. destruct (G r Hr) as (r' & c & v & k & L & ->). apply turn_moved; [left; eapply diffract_columns; eauto| |now apply full_fin].
    rewrite (diffract_columns _ _ _ _ _ _ _ _ _ F). eapply diffract_columns; eauto.
Qed.
Lemma project_after A t z z' x p p2 b b2 m m2 lo hi d d2 s s2 pd pd2 frames out : is_rotation A ->
  moved_sample A t p p2 -> moved_beam A t b b2 -> moved_motion A t m m2 -> moved_choice A t d d2 -> moved_detector A t s s2 ->
  fst (diffract z x p b m lo hi (cone_arg z d)) = Ok pd -> fst (diffract z x p2 b2 m2 lo hi (cone_arg z d2)) = Ok pd2 ->
  project z' s pd frames = Ok out ->
  exists out2, project z' s2 pd2 frames = Ok out2 /\ pd_peaks out2 = map (turn A t) (pd_peaks out) /\
    Forall2 (moved_row A t out out2) (pd_peaks out) (pd_peaks out2) /\ pd_columns out = column_names ++ new_columns /\ pd_columns out2 = column_names ++ new_columns.
Proof.
  intros HA P B M C S D1 D2 H.
  destruct (diffract_turn A t HA z x p p2 b b2 m m2 lo hi _ _ P B M (choice_cone A t z d d2 HA C)) as (_ & _ & O). cbv zeta in O.
  destruct (O pd D1) as (pd2' & F2 & R & G). rewrite D2 in F2. apply ok_inj in F2. subst pd2'.
  pose proof (diffract_columns _ _ _ _ _ _ _ _ _ D1) as C1. pose proof (diffract_columns _ _ _ _ _ _ _ _ _ D2) as C2.
  assert (GR : Forall good_row (pd_peaks pd)).
  { rewrite Forall_forall in *. intros r Hr. destruct (G r Hr) as (r' & c & v & k & L & ->). now apply full_fin. }
  destruct (project_turn A t HA z' s s2 pd pd2 frames out S GR R ltac:(now rewrite C1, C2) H) as (out2 & H2 & R2 & C3).
  exists out2. split; [exact H2|]. split; [exact R2|].
  assert (CO : pd_columns out = column_names ++ new_columns).
  { apply project_inv in H as (_ & Hc & _). now rewrite Hc, C1. }
  split; [|split; [exact CO|now rewrite C3]]. rewrite R2. apply Forall2_map_r. intros r Hr. apply turn_moved; [right; exact CO|exact C3|].
  apply project_inv in H as (Hp & _). rewrite Hp in Hr. apply in_map_iff in Hr as (r0 & <- & Hr0). apply filter_In in Hr0 as (Hr0 & _).
  rewrite Forall_forall in G. destruct (G r0 Hr0) as (r' & c & v & k & L & ->). destruct (full_fin z b m r' c v k L) as (G1 & G2).
  set (q := full_row z b m r' c v ++ [k]) in *. clearbody q. destruct G1 as (L25 & _). destruct G2 as (_ & F7 & F10 & F13 & F16).
  rewrite extend_eq by lia. destruct (get_intersection z' s (row_nvec q 13) (row_nvec q 16)) as [[zd yd] a].
  unfold all_fin, row_nvec. rewrite app_length. split; [lia|]. rewrite !ncol_app_l by lia. auto.
Qed.
(** ... the moved detector records the same 'micro' picture, and the same projected table. *)
Lemma pC89_same_picture : forall A t z x p p2 b b2 m m2 lo hi d d2 s s2 pd pd2 e frames ml mi im out, is_rotation A ->
  moved_sample A t p p2 -> moved_beam A t b b2 -> moved_motion A t m m2 -> moved_choice A t d d2 -> moved_detector A t s s2 ->
  fst (diffract z x p b m lo hi (cone_arg z d)) = Ok pd -> fst (diffract z x p2 b2 m2 lo hi (cone_arg z d2)) = Ok pd2 ->
  render e s pd frames "micro" ml mi = Ok (im, out) ->
  exists out2, render e s2 pd2 frames "micro" ml mi = Ok (im, out2) /\ Forall2 (moved_row A t out out2) (pd_peaks out) (pd_peaks out2).
Proof.
  intros A t z x p p2 b b2 m m2 lo hi d d2 s s2 pd pd2 e frames ml mi im out HA P B M C S D1 D2 H.
  unfold render in *. cbv zeta in *. destruct (project (re_z e) s pd _) as [o|] eqn:HP; [|discriminate]. cbn [bind] in H.
  destruct (project_after A t z (re_z e) x p p2 b b2 m m2 lo hi d d2 s s2 pd pd2 _ o HA P B M C S D1 D2 HP) as (out2 & H2 & R2 & F & _).
  rewrite H2. cbn [bind]. change (String.eqb "micro" "macro") with false in *. change (String.eqb "micro" "micro") with true in *. cbv iota in *.
  rewrite R2, (micro_turn A t e s s2) by (now apply (panel_turn A t HA s s2 S)). destruct (micro_method e s (pd_peaks o) _) as [im'|]; [|discriminate].
  cbn [bind] in *. apply ok_inj in H. injection H as -> ->. exists out2. split; [reflexivity|]. exact F.
Qed.
(** ... and the same 'nano' picture, provided the first detector corner is as far from the lab origin as
    before (pure rotations about the origin, for instance). *)
Lemma pC89_same_nano_picture : forall A t z x p p2 b b2 m m2 lo hi d d2 s s2 pd pd2 e frames ml mi im out, is_rotation A ->
  moved_sample A t p p2 -> moved_beam A t b b2 -> moved_motion A t m m2 -> moved_choice A t d d2 -> moved_detector A t s s2 ->
  norm (d_c0 s2) = norm (d_c0 s) ->
  fst (diffract z x p b m lo hi (cone_arg z d)) = Ok pd -> fst (diffract z x p2 b2 m2 lo hi (cone_arg z d2)) = Ok pd2 ->
  render e s pd frames "nano" ml mi = Ok (im, out) ->
  exists out2, render e s2 pd2 frames "nano" ml mi = Ok (im, out2).
Proof.
  intros A t z x p p2 b b2 m m2 lo hi d d2 s s2 pd pd2 e frames ml mi im out HA P B M C S N D1 D2 H.
  unfold render in *. cbv zeta in *. destruct (project (re_z e) s pd _) as [o|] eqn:HP; [|discriminate]. cbn [bind] in H.
  destruct (project_after A t z (re_z e) x p p2 b b2 m m2 lo hi d d2 s s2 pd pd2 _ o HA P B M C S D1 D2 HP) as (out2 & H2 & R2 & F & _).
  rewrite H2. cbn [bind]. change (String.eqb "nano" "macro") with false in *. change (String.eqb "nano" "micro") with false in *.
  change (String.eqb "nano" "nano") with true in *. cbv iota in *.
  rewrite R2, (nano_turn A t s s2 (proj1 (panel_turn A t HA s s2 S)) N). destruct (nano_method e s (pd_peaks o) _) as [im'|]; [|discriminate].
  cbn [bind] in *. apply ok_inj in H. injection H as -> ->. exists out2. reflexivity.
Qed.
(** In general it is not: every Airy disc is scaled by the ratio of the distances of the first detector
    corner from the lab origin. *)
Lemma pC89_nano_shift_refuted : forall A t z x p p2 b b2 m m2 lo hi d d2 s s2 pd pd2 z' frames out out2, is_rotation A ->
  moved_sample A t p p2 -> moved_beam A t b b2 -> moved_motion A t m m2 -> moved_choice A t d d2 -> moved_detector A t s s2 ->
  fst (diffract z x p b m lo hi (cone_arg z d)) = Ok pd -> fst (diffract z x p2 b2 m2 lo hi (cone_arg z d2)) = Ok pd2 ->
  project z' s pd frames = Ok out -> project z' s2 pd2 frames = Ok out2 -> d_c0 s <> vzero ->
  Forall2 (fun r r2 => disc_radius s2 out2 r2 = norm (put A t (d_c0 s)) / norm (d_c0 s) * disc_radius s out r) (pd_peaks out) (pd_peaks out2).
Proof.
  intros A t z x p p2 b b2 m m2 lo hi d d2 s s2 pd pd2 z' frames out out2 HA P B M C S D1 D2 H H2 N.
  destruct (project_after A t z z' x p p2 b b2 m m2 lo hi d d2 s s2 pd pd2 _ out HA P B M C S D1 D2 H) as (out2' & H2' & R2 & F & _).
  rewrite H2 in H2'. apply ok_inj in H2'. subst out2'. apply norm_neq0 in N.
  destruct (panel_turn A t HA s s2 S) as ((_ & _ & Z & _) & _ & _ & C0 & _).
  eapply F2_impl; [|exact F]. intros r r2 (E & _). unfold disc_radius, read. cbv beta.
  rewrite (E "scherrer_fwhm"%string), (E "incident_angle"%string), C0, Z by (cbn; intuition discriminate).
  set (w := match field out r "scherrer_fwhm" with Some (Fin y) => y | _ => 0 end). set (a := match field out r "incident_angle" with Some (Fin y) => y | _ => 0 end).
  unfold Rdiv. set (ic := / cos (a * (PI * / 180))). set (n2 := norm (put A t (d_c0 s))). set (ip := / d_pz s). field. exact N.
Qed.

(** ** The moved parts can be had *)
(** ... by transform: *)
Lemma pC89_transformed_sample : forall p g s, unit (m_axis g) -> exists A t, is_rotation A /\
  (forall y, put A t y = move_at g s y) /\ moved_sample A t p (transform p g s).
Proof.
  intros p g s U. eexists (rod_matrix (m_axis g) (m_angle g * s)), _. split; [now apply rod_rotation|]. split; [intros y; symmetry; apply move_at_aff|].
  unfold moved_sample, transform, mesh_update. cbn [pc_U pc_mesh_lab pc_volumes pc_eB pc_map pc_phases me_coord me_espherecentroids me_centroid].
  split; [reflexivity|]. split; [apply map_ext; intros; apply move_at_aff|]. split; [apply map_ext; intros; apply move_at_aff|]. split; [apply move_at_aff|]. auto.
Qed.
Lemma instantiate_map f N a : instantiate_mats N (mats_map f a) = rmap (map f) (instantiate_mats N a).
Proof.
  destruct a as [M|l|]; cbn [mats_map instantiate_mats rmap]; [f_equal; clear; induction N as [|N IH]; [reflexivity|cbn [repeat map]; now rewrite <- IH]| |reflexivity].
  rewrite map_length. destruct (Nat.eqb (List.length l) N); reflexivity.
Qed.
(** ... by building the sample there: moved vertices, turned orientations and strains. *)
Lemma pC89_built_sample : forall A t x coord enod me o st phs mp p, is_rotation A -> enod <> [] ->
  build_mesh coord enod = Ok me -> make_polycrystal x me o st phs mp = Ok p ->
  exists me2 p2, build_mesh (map (put A t) coord) enod = Ok me2 /\
    make_polycrystal x me2 (mats_map (mm A) o) (mats_map (fun e => mm (mm A e) (mT A)) st) phs mp = Ok p2 /\ moved_sample A t p p2.
Proof.
  intros A t x coord enod me o st phs mp p HA Hn HB HP. pose proof (build_moved A t coord enod me HA Hn HB) as HB2.
  destruct (build_mesh_inv _ _ _ HB) as (ts & ss & ET & ES & Eme). unfold make_polycrystal in *.
  assert (Eco : me_coord me = coord) by (rewrite Eme; reflexivity). assert (Een : me_enod me = enod) by (rewrite Eme; reflexivity).
  rewrite Eco, Een, ET in HP. cbn [bind] in HP.
  destruct (instantiate_mats (List.length enod) o) as [U|] eqn:EU; [|discriminate]. cbn [bind] in HP.
  destruct (instantiate_mats (List.length enod) st) as [eps|] eqn:EE; [|discriminate]. cbn [bind] in HP.
  destruct (instantiate_phase (List.length enod) phs mp) as [pm|] eqn:EM; [|discriminate]. cbn [bind] in HP.
  destruct (instantiate_eB x U eps phs pm (List.length enod)) as [eB|] eqn:EB; [|discriminate]. cbn [bind] in HP. apply ok_inj in HP.
  eexists. eexists. split; [exact HB2|]. cbn [moved me_coord me_enod]. rewrite Eco, Een, traverse_gather_map, ET. cbn [bind].
  rewrite !instantiate_map, EU, EE, EM. cbn [rmap bind]. unfold instantiate_eB in *. rewrite eB_loop_rot by apply HA. rewrite EB. cbn [bind]. split; [reflexivity|].
  subst p. unfold moved_sample, moved. cbn [pc_U pc_mesh_lab pc_volumes pc_eB pc_map pc_phases me_coord me_espherecentroids me_centroid].
  split; [reflexivity|]. split; [reflexivity|]. split; [reflexivity|]. split; [reflexivity|]. split; [|auto].
  rewrite map_map. apply map_ext. intros q. now apply aff_tet_volume.
Qed.
(** ... by constructing the motion and the detector with moved arguments (they are accepted or refused
    exactly as before), and the beam with turned direction and polarization, when the convex hull
    routine describes the moved beam region. *)
Lemma pC89_built_motion : forall A t a w T o m, is_rotation A ->
  make_motion a w T o = Ok m -> exists m2, make_motion (mv A a) w (mv A T) (put A t o) = Ok m2 /\ moved_motion A t m m2.
Proof.
  intros A t a w T o m HA H. apply make_motion_ok_iff in H as (H1 & H2 & ->). eexists. split; [|reflexivity].
  apply make_motion_ok_iff. rewrite rotation_norm by auto. auto.
Qed.
Lemma pC89_built_detector : forall A t c0 c1 c2 np ps sg th mr ul up us, is_rotation A ->
  (forall e, make_detector (put A t c0) (put A t c1) (put A t c2) np ps sg th mr ul up us = Err e <-> make_detector c0 c1 c2 np ps sg th mr ul up us = Err e) /\
  (forall d, make_detector c0 c1 c2 np ps sg th mr ul up us = Ok d -> exists d2,
     make_detector (put A t c0) (put A t c1) (put A t c2) np ps sg th mr ul up us = Ok d2 /\ moved_detector A t d d2).
Proof.
  intros A t c0 c1 c2 np ps sg th mr ul up us HA. pose proof (make_turn A t HA c0 c1 c2 np ps sg th mr ul up us) as H.
  destruct (make_detector c0 c1 c2 np ps sg th mr ul up us) as [d|e] eqn:E1, (make_detector (put A t c0) _ _ np ps sg th mr ul up us) as [d2|e2] eqn:E2; try contradiction.
  - split; [intros e; split; discriminate|]. intros d' E. apply ok_inj in E. subst d'. exists d2. split; [reflexivity|]. do 11 eexists. split; eassumption.
  - subst e2. split; [tauto|]. intros d E. discriminate.
Qed.
Lemma vdiv_mv A v s : vdiv (mv A v) s = mv A (vdiv v s).
Proof. rewrite !vdiv_scale, mv_scale. reflexivity. Qed.
Lemma pC89_built_beam : forall A t q q2 vs vs2 dir wl pol b b2, is_rotation A ->
  make_beam q vs dir wl pol = Ok b -> make_beam q2 vs2 (mv A dir) wl (mv A pol) = Ok b2 ->
  (forall y, strictly_inside (b_halfspaces b2) (put A t y) <-> strictly_inside (b_halfspaces b) y) -> moved_beam A t b b2.
Proof.
  intros A t q q2 vs vs2 dir wl pol b b2 HA H H2 HS. split; [|split; [|split; [|exact HS]]]; clear HS; revert H H2; unfold make_beam;
    destruct (Req_EM_T wl 0); try discriminate; destruct (beam_vertex_state q vs) as [[[v c] h]|]; try discriminate; cbn [bind];
    destruct (beam_vertex_state q2 vs2) as [[[v2 c2] h2]|]; try (intros _ E; discriminate); cbn [bind];
    rewrite !rotation_norm by auto; destruct (Req_EM_T (norm dir) 0); try discriminate; destruct (Req_EM_T (norm pol) 0); try discriminate;
    destruct (assert_ _); try discriminate; cbn [bind]; destruct (assert_ _); try (intros _ E; discriminate); cbn [bind];
    intros H H2; apply ok_inj in H; apply ok_inj in H2; subst b b2; cbn [b_wave_vector b_polarization b_wavelength];
    rewrite ?vdiv_mv, <- ?mv_scale; auto. rewrite vdiv_mv. reflexivity.
Qed.
Lemma dot_vadd_r a b c : dot a (vadd b c) = dot a b + dot a c. Proof. vdes; vunf; ring. Qed.
Lemma hs_turn A t h y : is_rotation A -> dot (hs_n (moved_halfspace A t h)) (put A t y) + hs_d (moved_halfspace A t h) = dot (hs_n h) y + hs_d h.
Proof.
  intros HA. unfold moved_halfspace, put. cbn [hs_n hs_d]. rewrite dot_vadd_r, rotation_dot by auto. ring.
Qed.
Lemma pC89_moved_faces : forall A t hs y, is_rotation A ->
  (strictly_inside (map (moved_halfspace A t) hs) (put A t y) <-> strictly_inside hs y).
Proof.
  intros A t hs y HA. unfold strictly_inside. split.
  - intros H h Hh. rewrite <- (hs_turn A t h y HA). apply H. now apply in_map.
  - intros H h Hh. apply in_map_iff in Hh as (h0 & <- & Hh). rewrite hs_turn by auto. now apply H.
Qed.

(** ** Non-vacuity *)
Lemma xC89_elsewhere : exists A t z x p p2 b b2 m m2 lo hi d d2 pd pd2 e im out,
  is_rotation A /\ t <> vzero /\ A <> mI /\ moved_sample A t p p2 /\ moved_beam A t b b2 /\ moved_motion A t m m2 /\ moved_detector A t d d2 /\
  fst (diffract z x p b m lo hi (cone_arg z None)) = Ok pd /\ fst (diffract z x p2 b2 m2 lo hi (cone_arg z None)) = Ok pd2 /\
  render e d pd 1 "micro" None 1 = Ok (im, out) /\ d_c0 d <> vzero /\ norm (put A t (d_c0 d)) <> norm (d_c0 d).
Proof.
  destruct big_beam as (b & Hb & Hk & Hin). destruct (ex_pc two_planes) as (me & p & H1 & H2 & H3 & H4 & H5 & H6 & H7 & H8 & H9 & H10).
  pose proof (ex_outcome two_planes me p b Hk H3 H4 H5 H6 H7 H8) as O.
  destruct (diffract false (ex_xtal two_planes) p b ex_motion 0 1 None) as [r p'] eqn:D. destruct O as (_ & O & Oph).
  destruct O as (pd & ->). { cbn [map two_planes list_sum fold_right]. now rewrite refl_pos, refl_neg. }
  destruct side_detector as (d & Bd & C0 & C1 & C2 & F1 & F2 & F3).
  set (e := REnv false 1 1 (fun _ => 0) (fun _ => []) big_qhull (fun _ => None) (fun _ => Err ValueError) (fun _ _ => Err ValueError) (fun _ _ _ => [])).
  assert (Hf : fresh pd) by (apply (pC32_diffract_tables_fresh false (ex_xtal two_planes) p b ex_motion 0 1 None); now rewrite D).
  destruct (pC39_micro_never_fails e d pd 1%Z None 1 Hf) as (im & out & HI).
  set (A := M3 (V3 0 (-1) 0) (V3 1 0 0) (V3 0 0 1)). set (t := V3 (-5) 3 2).
  assert (HA : is_rotation A) by (unfold is_rotation, A; repeat split; [veq|veq|vunf; ring]).
  set (b2 := Beam (mv A (b_wave_vector b)) (b_wavelength b) (map (put A t) (b_vertices b)) (put A t (b_centroid b)) (map (moved_halfspace A t) (b_halfspaces b)) (mv A (b_polarization b))).
  assert (B2 : moved_beam A t b b2) by (repeat split; apply pC89_moved_faces; auto).
  destruct (pC89_built_sample A t (ex_xtal two_planes) ex_coord ex_enod me (One mI) (One mzero) [ex_phase] (Some [0]) p HA ltac:(discriminate) H1 H2) as (me2 & p2 & _ & _ & P2).
  set (m2 := Motion (mv A (m_axis ex_motion)) (m_angle ex_motion) (mv A (m_trans ex_motion)) (put A t (m_origin ex_motion))).
  assert (M2 : moved_motion A t ex_motion m2) by reflexivity.
  destruct Bd as (c0 & c1 & c2 & np & ps & sg & th & mr & ul & up & us & Hd).
  destruct (proj2 (pC89_built_detector A t c0 c1 c2 np ps sg th mr ul up us HA) d Hd) as (d2 & _ & S).
  pose proof (pC89_same_table A t false (ex_xtal two_planes) p p2 b b2 ex_motion m2 0 1 None None HA P2 B2 M2 I) as (_ & T & _). cbv zeta in T.
  destruct (T pd (f_equal fst D)) as (pd2 & D2 & _).
  exists A, t, false, (ex_xtal two_planes), p, p2, b, b2, ex_motion, m2, 0, 1, d, d2, pd, pd2, e, im, out.
  split; [exact HA|]. split; [intros E; apply (f_equal vx) in E; cbn in E; lra|]. split; [intros E; unfold A, mI in E; injection E; intros; lra|].
  repeat match goal with |- _ /\ _ => split end; auto.
  - exact (f_equal fst D).
  - rewrite C0. intros E. apply (f_equal vy) in E. cbn in E. lra.
  - rewrite C0. unfold norm. intros E. apply sqrt_inj in E; [|apply normsq_nonneg|apply normsq_nonneg]. revert E. unfold put, A, t. vunf. lra.
Qed.
