(** * The same experiment set up elsewhere: diffract (C89). *)
From Verif Require Import Vec Spec MMotion MLaue MMesh MScattering MStrain MBeam SBeam MPolycrystal SPolycrystal MDetector MRender SFrame.
From Verif Require Import PMotion PLaue PMesh PBeam PStrain PPolycrystal PPolycrystal2 PDetector PDetector2 PRender PEvents PFrame.
From Verif Require Import SDetector.
Open Scope list_scope. Open Scope R_scope.

Lemma compute_peaks_bind z p phs b m : compute_peaks z p phs b m =
  let* rows := rows10 p phs (laue_factors (b_wave_vector b) (m_axis m)) (m_angle m) in
  let* cents := gather (me_espherecentroids (pc_mesh_lab p)) (map grain_of rows) in
  let* vols := gather (pc_volumes p) (map grain_of rows) in
  if Nat.eqb (List.length rows) 1 then Err IndexError
  else Ok (map (fun t => full_row z b m (fst (fst t)) (snd (fst t)) (snd t)) (zip3 rows cents vols)).
Proof.
  destruct (rows10 p phs (laue_factors (b_wave_vector b) (m_axis m)) (m_angle m)) as [rows|] eqn:E1.
  2:{ unfold compute_peaks. cbv zeta. rewrite E1. reflexivity. }
  destruct (gather (me_espherecentroids (pc_mesh_lab p)) (map grain_of rows)) as [cents|] eqn:E2.
  2:{ unfold compute_peaks. cbv zeta. rewrite E1. cbn [bind].
      rewrite rotate_P2_S1 by (rewrite !map_length; auto). cbn [bind rows_of]. rewrite E2. reflexivity. }
  destruct (gather (pc_volumes p) (map grain_of rows)) as [vols|] eqn:E3.
  2:{ unfold compute_peaks. cbv zeta. rewrite E1. cbn [bind].
      rewrite rotate_P2_S1 by (rewrite !map_length; auto). cbn [bind rows_of]. rewrite E2. cbn [bind].
      rewrite call_P2_S1 by (rewrite map_length, <- (Forall2_len _ _ _ (gather_spec _ _ _ E2)), map_length; auto).
      cbn [bind]. rewrite E3. reflexivity. }
  rewrite (compute_peaks_rows _ _ _ _ _ _ _ _ E1 E2 E3). cbn [bind]. rewrite E2. cbn [bind]. rewrite E3. reflexivity.
Qed.
Lemma peak_row_len grains i planes ev r : peak_row10 grains i planes ev = Ok r -> List.length r = 10%nat.
Proof.
  unfold peak_row10. destruct (nth_error grains _); [|discriminate]. destruct (nth_error planes _) as [[h sf]|]; [|discriminate].
  intros H. apply ok_inj in H. subst r. reflexivity.
Qed.
Lemma rows10_len p phs rho dw rows : rows10 p phs rho dw = Ok rows -> Forall (fun r => List.length r = 10%nat) rows.
Proof.
  intros E. apply Forall_forall. intros r Hr. apply (rows10_in _ _ _ _ _ r E) in Hr as (i & ph & _ & Hev).
  destruct Hev as (e & h & sf & tt & G & _ & _ & _ & _ & ->). reflexivity.
Qed.
Lemma zip3_map {A B C A' B' C'} (f : A -> A') (g : B -> B') (h : C -> C') l m n :
  zip3 (map f l) (map g m) (map h n) = map (fun t => (f (fst (fst t)), g (snd (fst t)), h (snd t))) (zip3 l m n).
Proof.
  unfold zip3. rewrite !combine_map. rewrite map_map || idtac. apply map_ext. intros ((a & b) & c). reflexivity.
Qed.
Lemma mapi_map_ext {X Y Z} (f : nat -> Y -> Z) (g : X -> Y) (h : nat -> X -> Z) l : (forall k x, In x l -> f k (g x) = h k x) -> mapi f (map g l) = mapi h l.
Proof.
  unfold mapi. generalize 0%nat. induction l as [|x l IH]; intros i H; cbn [map mapi_from]; [reflexivity|].
  rewrite H by (left; reflexivity). f_equal. apply IH. intros k y Hy. apply H. now right.
Qed.
Lemma map_mapi {X Y Z} (f : nat -> X -> Y) (g : Y -> Z) l : map g (mapi f l) = mapi (fun k x => g (f k x)) l.
Proof. unfold mapi. generalize 0%nat. induction l as [|x l IH]; intros i; cbn [map mapi_from]; [reflexivity|]. now rewrite IH. Qed.

Section Frame2.
Variables (A : mat) (t : vec).
Hypothesis HA : is_rotation A.

Lemma grain_turn r : List.length r = 10%nat -> grain_of (turn10 A r) = grain_of r.
Proof. intros L. do 10 (destruct r as [|? r]; [discriminate L|]). destruct r; [|discriminate L]. reflexivity. Qed.
Lemma compute_turn z p p2 phs b b2 m m2 : moved_sample A t p p2 -> moved_beam A t b b2 -> moved_motion A t m m2 ->
  compute_peaks z p2 phs b2 m2 = rmap (map (turn A t)) (compute_peaks z p phs b m).
Proof.
  intros P B M. rewrite !compute_peaks_bind.
  assert (E1 : b_wave_vector b2 = mv A (b_wave_vector b)) by apply B.
  assert (E2 : m_axis m2 = mv A (m_axis m)) by (rewrite M; reflexivity).
  assert (E3 : m_angle m2 = m_angle m) by (rewrite M; reflexivity).
  rewrite E1, E2, E3, (rows10_turn A t HA p p2) by auto.
  destruct (rows10 p phs _ _) as [rows|] eqn:ER; [|reflexivity]. cbn [rmap bind]. apply rows10_len in ER.
  assert (EG : map grain_of (map (turn10 A) rows) = map grain_of rows).
  { rewrite map_map. apply map_ext_in. intros r Hr. rewrite Forall_forall in ER. now apply grain_turn, ER. }
  rewrite EG. destruct P as (_ & _ & P3 & _ & P5 & _). rewrite P3, P5, gather_rmap.
  destruct (gather (me_espherecentroids _) _) as [cents|]; [|reflexivity]. cbn [rmap bind].
  destruct (gather (pc_volumes p) _) as [vols|]; [|reflexivity]. cbn [rmap bind]. rewrite map_length.
  destruct (Nat.eqb (List.length rows) 1); [reflexivity|]. cbn [rmap]. f_equal.
  rewrite <- (map_id vols) at 1. rewrite zip3_map, !map_map. apply map_ext_in. intros ((r & c) & v) Hi. cbn [fst snd].
  apply full_turn; auto. rewrite Forall_forall in ER. apply ER. apply zip3_in in Hi as (k & Hk & _). eapply nth_error_In; eauto.
Qed.
Lemma contains_turn b b2 x : moved_beam A t b b2 -> beam_contains (b_halfspaces b2) (put A t x) = beam_contains (b_halfspaces b) x.
Proof.
  intros (_ & _ & _ & H). specialize (H x). rewrite <- !contains_iff in H.
  destruct (beam_contains _ (put A t x)), (beam_contains _ x); try reflexivity; [symmetry|]; tauto.
Qed.
Lemma lit_full z b b2 m m2 r c v : moved_beam A t b b2 -> moved_motion A t m m2 -> List.length r = 10%nat ->
  illuminated b2 (turn A t (full_row z b m r c v)) = illuminated b (full_row z b m r c v).
Proof.
  intros B M L. rewrite <- (full_turn A t HA z b b2 m m2 r c v B M L).
  do 10 (destruct r as [|? r]; [discriminate L|]). destruct r; [|discriminate L]. clear L.
  unfold full_row. cbv zeta. change (rcol (turn10 A _) 6) with r6. change (rcol _ 6) with r6. rewrite (move_turn A t HA m m2 r6 c M).
  pose proof (contains_turn b b2 (move_at m r6 c) B) as E. revert E. generalize (move_at m r6 c). intros s E.
  destruct s as [sx sy sz]. set (q := put A t (V3 sx sy sz)) in *. clearbody q. destruct q as [qx qy qz]. exact E.
Qed.
Lemma source_turn p p2 b b2 : moved_sample A t p p2 -> moved_beam A t b b2 -> bragg_source p2 b2 = put A t (bragg_source p b).
Proof.
  intros (_ & P2 & _ & P4 & _) B. unfold bragg_source. rewrite P2, P4, filter_map.
  rewrite (filter_ext (fun x => beam_contains (b_halfspaces b2) (put A t x)) (beam_contains (b_halfspaces b))) by (intros; now apply contains_turn).
  destruct (filter _ (me_coord (pc_mesh_lab p))) as [|x l] eqn:E; [reflexivity|]. change (map (put A t) (x :: l)) with (put A t x :: map (put A t) l).
  cbv iota. change (put A t x :: map (put A t) l) with (map (aff A t) (x :: l)). now apply mean_aff.
Qed.
(** The detector cones of the two set-ups. *)
Definition same_cone (c c2 : option cone) : Prop :=
  match c, c2 with
  | None, None => True
  | Some f, Some f2 => forall k s, f2 (mv A k) (put A t s) = f k s
  | _, _ => False
  end.
Lemma diffract_turn z x p p2 b b2 m m2 lo hi c c2 : moved_sample A t p p2 -> moved_beam A t b b2 -> moved_motion A t m m2 -> same_cone c c2 ->
  let out := diffract z x p b m lo hi c in let out2 := diffract z x p2 b2 m2 lo hi c2 in
  moved_sample A t (snd out) (snd out2) /\
  (forall e, fst out = Err e -> fst out2 = Err e) /\
  (forall pd, fst out = Ok pd -> exists pd2, fst out2 = Ok pd2 /\ pd_peaks pd2 = map (turn A t) (pd_peaks pd) /\
     Forall (fun r => exists r' c v k, List.length r' = 10%nat /\ r = full_row z b m r' c v ++ [k]) (pd_peaks pd)).
Proof.
  intros P B M C. cbv zeta.
  set (bd := match c with None => Ok (lo, hi) | Some d => bragg_bounds p d b lo end).
  assert (EB : (match c2 with None => Ok (lo, hi) | Some d => bragg_bounds p2 d b2 lo end) = bd).
  { unfold bd. destruct c as [f|], c2 as [f2|]; cbn in C; try contradiction; [|reflexivity]. unfold bragg_bounds.
    rewrite (source_turn p p2 b b2 P B). assert (E1 : b_wave_vector b2 = mv A (b_wave_vector b)) by apply B. now rewrite E1, C. }
  unfold diffract. rewrite EB. fold bd. destruct bd as [[l h]|e].
  2:{ cbn [fst snd]. split; [exact P|]. split; [intros e' E; exact E|]. intros pd E; discriminate. }
  assert (EW : b_wavelength b2 = b_wavelength b) by apply B.
  assert (EP : pc_phases p2 = pc_phases p) by apply P. rewrite EW, EP. set (phs := map _ (pc_phases p)).
  set (q := PC _ _ _ _ phs _ (pc_mesh_lab p) _ _ _). set (q2 := PC _ _ _ _ phs _ (pc_mesh_lab p2) _ _ _).
  assert (Q : moved_sample A t q q2).
  { destruct P as (P1 & P2 & P3 & P4 & P5 & P6 & P7 & P8). unfold moved_sample, q, q2. cbn [pc_U pc_mesh_lab pc_volumes pc_eB pc_map pc_phases]. auto 10. }
  cbn [fst snd]. split; [exact Q|]. rewrite (compute_turn z q q2 phs b b2 m m2 Q B M).
  destruct (compute_peaks z q phs b m) as [rows|e'] eqn:EC; cbn [rmap bind].
  2:{ split; [intros e E; exact E|]. intros pd E; discriminate. }
  split; [intros e E; discriminate|]. intros pd E. apply ok_inj in E. subst pd. eexists. split; [reflexivity|]. cbn [pd_peaks].
  apply compute_peaks_inv in EC as (rs & cs & vs & ER & _ & _ & _ & ->). apply rows10_len in ER.
  assert (HL : forall r, In r (map (fun t0 => full_row z b m (fst (fst t0)) (snd (fst t0)) (snd t0)) (zip3 rs cs vs)) ->
     exists r' c0 v0, List.length r' = 10%nat /\ r = full_row z b m r' c0 v0).
  { intros r Hr. apply in_map_iff in Hr as (((r' & c0) & v0) & <- & Hi). cbn [fst snd]. exists r', c0, v0. split; [|reflexivity].
    rewrite Forall_forall in ER. apply ER. apply zip3_in in Hi as (k & Hk & _). eapply nth_error_In; eauto. }
  set (rows := map _ (zip3 rs cs vs)) in *. clearbody rows. rewrite filter_map.
  rewrite (filter_ext_in (fun r => illuminated b2 (turn A t r)) (illuminated b)).
  2:{ intros r Hr. apply HL in Hr as (r' & c0 & v0 & L & ->). now apply (lit_full z b b2 m m2). }
  rewrite map_mapi. split.
  - apply mapi_map_ext. intros k r Hr. apply filter_In in Hr as (Hr & _). apply HL in Hr as (r' & c0 & v0 & L & ->).
    symmetry. apply turn_app. unfold full_row, row24. cbv zeta. rewrite !app_length, !map_length, L. cbn [vlist List.length]. lia.
  - apply Forall_forall. intros r Hr. apply In_nth_error in Hr as (k & Hk). rewrite mapi_nth_error in Hk.
    destruct (nth_error (filter (illuminated b) rows) k) as [o|] eqn:Eo; [|discriminate]. cbn [option_map] in Hk. apply some_inj in Hk || (injection Hk as Hk).
    apply nth_error_In, filter_In in Eo as (Ho & _). apply HL in Ho as (r' & c0 & v0 & L & ->). exists r', c0, v0, (Fin (INR k)). split; [exact L|]. now symmetry.
Qed.
End Frame2.
