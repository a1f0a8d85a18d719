(** * All lengths multiplied by s: diffract (C94). *)
From Verif Require Import Vec Spec MMotion MLaue MMesh MScattering MStrain MBeam SBeam MPolycrystal SPolycrystal MDetector MRender SScale.
From Verif Require Import PMotion PLaue PMesh PBeam PStrain PPolycrystal PPolycrystal2 PDetector PDetector2 PRender PEvents PFrame PFrame2.
From Verif Require Import SDetector.
Open Scope list_scope. Open Scope R_scope.

Lemma nmul_1 x : nmul (Fin 1) x = x.
Proof.
  destruct x as [r| | |]; cbn [nmul]; [f_equal; ring| | |reflexivity].
  - destruct (Req_EM_T 1 0); [lra|]. replace (Rltb 0 1) with true by (symmetry; apply Rltb_true; lra). reflexivity.
  - destruct (Req_EM_T 1 0); [lra|]. replace (Rltb 1 0) with false by (symmetry; apply Rltb_false; lra). reflexivity.
Qed.
Lemma vscale_sub s a b : vsub (vscale s a) (vscale s b) = vscale s (vsub a b). Proof. veq. Qed.
Lemma vscale_add s a b : vadd (vscale s a) (vscale s b) = vscale s (vadd a b). Proof. veq. Qed.
Lemma shift_scale s w o T x : vadd (vadd (vscale s w) (vscale s o)) (vscale x (vscale s T)) = vscale s (vadd (vadd w o) (vscale x T)).
Proof. veq. Qed.
Lemma move_scale s m m2 x y : scaled_motion s m m2 -> move_at m2 x (vscale s y) = vscale s (move_at m x y).
Proof.
  intros ->. unfold move_at, rot_at. cbn [m_axis m_angle m_origin m_trans]. rewrite vscale_sub, mv_scale. apply shift_scale.
Qed.
Lemma rot_scale s m m2 x y : scaled_motion s m m2 -> rot_at m2 x y = rot_at m x y.
Proof. intros ->. reflexivity. Qed.

(** ** The Scherrer width *)
Lemma cbrt_scale s x : 0 < s -> 0 <= x -> cbrt_nonneg (s ^ 3 * x) = s * cbrt_nonneg x.
Proof.
  intros Hs Hx. unfold cbrt_nonneg. assert (H3 : 0 < s ^ 3) by (apply pow_lt; exact Hs).
  destruct (Req_EM_T x 0) as [->|N].
  - destruct (Req_EM_T (s ^ 3 * 0) 0) as [_|N]; [ring|]. exfalso. apply N. ring.
  - destruct (Req_EM_T (s ^ 3 * x) 0) as [E|_].
    + exfalso. apply Rmult_integral in E as [E|E]; lra.
    + rewrite <- Rpower_mult_distr by lra. f_equal.
      replace (s ^ 3) with (Rpower s 3).
      2:{ change 3 with (INR 3) at 1 || replace 3 with (INR 3) by (cbn; lra). now rewrite Rpower_pow. }
      rewrite Rpower_mult. replace (3 * (1 / 3)) with 1 by field. now apply Rpower_1.
Qed.
Lemma size_scale s v : 0 < s -> 0 <= v -> crystallite_size (s ^ 3 * v) = s * crystallite_size v.
Proof.
  intros Hs Hv. unfold crystallite_size. assert (HP : 0 < PI) by apply PI_RGT_0.
  replace (3 * (s ^ 3 * v) / (4 * PI)) with (s ^ 3 * (3 * v / (4 * PI))) by (field; lra).
  rewrite cbrt_scale; auto; [ring|]. apply Rmult_le_pos; [lra|]. left. apply Rinv_0_lt_compat. lra.
Qed.
Lemma ndiv_scale z a s c : 0 < s -> ndiv z (Fin a) (Fin (s * c)) = nmul (Fin (/ s)) (ndiv z (Fin a) (Fin c)).
Proof.
  intros Hs. cbn [ndiv]. assert (Hi : 0 < / s) by (now apply Rinv_0_lt_compat). destruct (Req_EM_T c 0) as [->|N].
  - destruct (Req_EM_T (s * 0) 0) as [_|N]; [|exfalso; apply N; ring].
    destruct (Req_EM_T a 0); [reflexivity|]. unfold nsign_inf. destruct (xorb _ _); cbn [nmul]; destruct (Req_EM_T (/ s) 0); try lra.
    + replace (Rltb 0 (/ s)) with true by (symmetry; now apply Rltb_true). reflexivity.
    + replace (Rltb (/ s) 0) with false by (symmetry; apply Rltb_false; lra). reflexivity.
  - destruct (Req_EM_T (s * c) 0) as [E|_]; [apply Rmult_integral in E as [E|E]; lra|]. cbn [nmul]. f_equal. field. lra.
Qed.
Lemma scherrer_scale z s v tt w : 0 < s -> 0 <= v -> scherrer_num z (s ^ 3 * v) tt w = nmul (Fin (/ s)) (scherrer_num z v tt w).
Proof.
  intros Hs Hv. destruct tt as [a| | |]; try reflexivity. cbn [scherrer_num]. unfold scherrer. rewrite size_scale by auto.
  rewrite Rmult_assoc. now apply ndiv_scale.
Qed.

(** ** Rows *)
(** The factor of column number j of diffract's and project's tables. *)
Definition cf (s : R) (j : nat) : R :=
  match j with 16%nat | 17%nat | 18%nat | 25%nat | 26%nat => s | 21%nat => s ^ 3 | 23%nat => / s | _ => 1 end.
Definition grow (s : R) (r : list num) : list num := mapi (fun j x => nmul (Fin (cf s j)) x) r.
Lemma grow_length s r : List.length (grow s r) = List.length r. Proof. unfold grow, mapi. generalize 0%nat. induction r; intros; cbn; auto. Qed.
Lemma grow_nth s r j : nth_error (grow s r) j = option_map (nmul (Fin (cf s j))) (nth_error r j).
Proof. unfold grow. rewrite mapi_nth_error. reflexivity. Qed.
Lemma grow_ncol s r j : ncol (grow s r) j = nmul (Fin (cf s j)) (ncol r j).
Proof.
  unfold ncol. destruct (nth_error r j) as [x|] eqn:E.
  - rewrite (nth_error_nth r j NaN E). apply nth_error_nth. now rewrite grow_nth, E.
  - rewrite !nth_overflow; [reflexivity| |]; [|rewrite grow_length]; now apply nth_error_None.
Qed.
Lemma grow_same s r j : cf s j = 1 -> ncol (grow s r) j = ncol r j.
Proof. intros E. rewrite grow_ncol, E. apply nmul_1. Qed.
Lemma mapi_app' {X Y} (f : nat -> X -> Y) a b : forall i, mapi_from i f (a ++ b) = mapi_from i f a ++ mapi_from (i + List.length a) f b.
Proof.
  induction a as [|x a IH]; intros i; cbn [app mapi_from List.length]; [now rewrite Nat.add_0_r|]. rewrite IH. do 3 f_equal. lia.
Qed.

Section Scale.
Variable s : R.
Hypothesis Hs : 0 < s.

Lemma full_grow z b b2 m m2 r c v : scaled_beam s b b2 -> scaled_motion s m m2 -> List.length r = 10%nat -> 0 <= v ->
  full_row z b2 m2 r (vscale s c) (s ^ 3 * v) = grow s (full_row z b m r c v).
Proof.
  intros (B1 & B2 & B3 & _) M L Hv.
  do 10 (destruct r as [|? r]; [discriminate L|]). destruct r; [|discriminate L]. clear L.
  unfold full_row. cbv zeta. rewrite B1, B2, B3. rewrite (rot_scale s m m2 _ _ M), (move_scale s m m2 _ _ M).
  assert (MX : m_axis m2 = m_axis m) by (rewrite M; reflexivity). rewrite MX, scherrer_scale by auto.
  generalize (vadd (rot_at m (rcol [r0; r1; r2; r3; r4; r5; r6; r7; r8; r9] 6) (rvec [r0; r1; r2; r3; r4; r5; r6; r7; r8; r9] 7)) (b_wave_vector b)). intros K.
  generalize (rot_at m (rcol [r0; r1; r2; r3; r4; r5; r6; r7; r8; r9] 6) (rvec [r0; r1; r2; r3; r4; r5; r6; r7; r8; r9] 7)) (move_at m (rcol [r0; r1; r2; r3; r4; r5; r6; r7; r8; r9] 6) c). intros G S.
  generalize (lorentz z (b_wave_vector b) (m_axis m) K) (polarization (b_polarization b) K) (two_theta (b_wave_vector b) K) (scherrer_num z v (two_theta (b_wave_vector b) K) (b_wavelength b)).
  intros lo po tt sc. unfold row24, grow, mapi. cbn [map app vlist mapi_from cf]. rewrite !nmul_1. reflexivity.
Qed.
Lemma rows10_scale p p2 phs rho w : scaled_sample s p p2 -> rows10 p2 phs rho w = rows10 p phs rho w.
Proof.
  intros (_ & _ & _ & _ & HU & HB & HM & _). unfold rows10, phase_rows. rewrite HU, HB, HM. reflexivity.
Qed.
Lemma compute_scale z p p2 phs b b2 m m2 : scaled_sample s p p2 -> scaled_beam s b b2 -> scaled_motion s m m2 -> Forall (Rle 0) (pc_volumes p) ->
  compute_peaks z p2 phs b2 m2 = rmap (map (grow s)) (compute_peaks z p phs b m).
Proof.
  intros P B M V. rewrite !compute_peaks_bind.
  assert (E1 : b_wave_vector b2 = b_wave_vector b) by apply B.
  assert (E2 : m_axis m2 = m_axis m) by (rewrite M; reflexivity).
  assert (E3 : m_angle m2 = m_angle m) by (rewrite M; reflexivity).
  rewrite E1, E2, E3, (rows10_scale p p2) by auto.
  destruct (rows10 p phs _ _) as [rows|] eqn:ER; [|reflexivity]. cbn [rmap bind]. apply rows10_len in ER.
  destruct P as (_ & P3 & _ & P5 & _). rewrite P3, P5, !gather_rmap.
  destruct (gather (me_espherecentroids _) _) as [cents|]; [|reflexivity]. cbn [rmap bind].
  destruct (gather (pc_volumes p) _) as [vols|] eqn:EV; [|reflexivity]. cbn [rmap bind].
  destruct (Nat.eqb (List.length rows) 1); [reflexivity|]. cbn [rmap]. f_equal.
  rewrite <- (map_id rows) at 1. rewrite zip3_map, !map_map. apply map_ext_in. intros ((r & c) & v) Hi. cbn [fst snd].
  apply zip3_in in Hi as (k & Hk & _ & Hv).
  apply full_grow; auto. { rewrite Forall_forall in ER. apply ER. eapply nth_error_In; eauto. }
  apply gather_spec in EV. destruct (Forall2_in_r _ _ _ _ EV (nth_error_In _ _ Hv)) as (i & _ & Hi). rewrite Forall_forall in V. apply V.
  destruct (nth_error (pc_volumes p) i) as [y|] eqn:E; [|discriminate Hi]. apply nth_error_In in E. congruence.
Qed.
Lemma contains_scale b b2 x : scaled_beam s b b2 -> beam_contains (b_halfspaces b2) (vscale s x) = beam_contains (b_halfspaces b) x.
Proof.
  intros (_ & _ & _ & H). specialize (H x). rewrite <- !contains_iff in H.
  destruct (beam_contains _ (vscale s x)), (beam_contains _ x); try reflexivity; [symmetry|]; tauto.
Qed.
Lemma lit_scale z b b2 m r c v : scaled_beam s b b2 -> List.length r = 10%nat ->
  illuminated b2 (grow s (full_row z b m r c v)) = illuminated b (full_row z b m r c v).
Proof.
  intros B L. unfold illuminated. rewrite !grow_ncol.
  do 10 (destruct r as [|? r]; [discriminate L|]). destruct r; [|discriminate L]. clear L.
  unfold full_row. cbv zeta. generalize (move_at m (rcol [r0; r1; r2; r3; r4; r5; r6; r7; r8; r9] 6) c). intros q.
  unfold row24. cbn [map app vlist]. unfold ncol. cbn [nth cf nmul].
  rewrite <- (contains_scale b b2 _ B). f_equal. 
Qed.
Lemma mean_scale l : mean_list (map (vscale s) l) = vscale s (mean_list l).
Proof.
  unfold mean_list. rewrite map_length. replace (fold_right vadd vzero (map (vscale s) l)) with (vscale s (fold_right vadd vzero l)).
  - generalize (fold_right vadd vzero l) (/ INR (List.length l)). intros; veq.
  - induction l as [|x l IH]; cbn [map fold_right]; [|rewrite <- IH, vscale_add; reflexivity]. vext; vunf; ring.
Qed.
Lemma source_scale p p2 b b2 : scaled_sample s p p2 -> scaled_beam s b b2 -> bragg_source p2 b2 = vscale s (bragg_source p b).
Proof.
  intros (P2 & _ & P4 & _) B. unfold bragg_source. rewrite P2, P4, filter_map.
  rewrite (filter_ext (fun x => beam_contains (b_halfspaces b2) (vscale s x)) (beam_contains (b_halfspaces b))) by (intros; now apply contains_scale).
  destruct (filter _ (me_coord (pc_mesh_lab p))) as [|x l] eqn:E; [reflexivity|].
  change (map (vscale s) (x :: l)) with (vscale s x :: map (vscale s) l). cbv iota. apply (mean_scale (x :: l)).
Qed.
Definition cones (c c2 : option cone) : Prop :=
  match c, c2 with
  | None, None => True
  | Some f, Some f2 => forall k o, f2 k (vscale s o) = f k o
  | _, _ => False
  end.
Lemma diffract_scale z x p p2 b b2 m m2 lo hi c c2 : scaled_sample s p p2 -> scaled_beam s b b2 -> scaled_motion s m m2 -> cones c c2 -> Forall (Rle 0) (pc_volumes p) ->
  let out := diffract z x p b m lo hi c in let out2 := diffract z x p2 b2 m2 lo hi c2 in
  scaled_sample s (snd out) (snd out2) /\
  (forall e, fst out = Err e -> fst out2 = Err e) /\
  (forall pd, fst out = Ok pd -> exists pd2, fst out2 = Ok pd2 /\ pd_peaks pd2 = map (grow s) (pd_peaks pd) /\
     Forall (fun r => exists r' c v k, List.length r' = 10%nat /\ r = full_row z b m r' c v ++ [k]) (pd_peaks pd)).
Proof.
  intros P B M C V. cbv zeta.
  set (bd := match c with None => Ok (lo, hi) | Some d => bragg_bounds p d b lo end).
  assert (EB : (match c2 with None => Ok (lo, hi) | Some d => bragg_bounds p2 d b2 lo end) = bd).
  { unfold bd. destruct c as [f|], c2 as [f2|]; cbn in C; try contradiction; [|reflexivity]. unfold bragg_bounds.
    rewrite (source_scale p p2 b b2 P B). assert (E1 : b_wave_vector b2 = b_wave_vector b) by apply B. now rewrite E1, C. }
  unfold diffract. rewrite EB. fold bd. destruct bd as [[l h]|e].
  2:{ cbn [fst snd]. split; [exact P|]. split; [intros e' E; exact E|]. intros pd E; discriminate. }
  assert (EW : b_wavelength b2 = b_wavelength b) by apply B.
  assert (EP : pc_phases p2 = pc_phases p) by apply P. rewrite EW, EP. set (phs := map _ (pc_phases p)).
  set (q := PC _ _ _ _ phs _ (pc_mesh_lab p) _ _ _). set (q2 := PC _ _ _ _ phs _ (pc_mesh_lab p2) _ _ _).
  assert (Q : scaled_sample s q q2).
  { destruct P as (P1 & P2 & P3 & P4 & P5 & P6 & P7 & P8). unfold scaled_sample, q, q2. cbn [pc_U pc_mesh_lab pc_volumes pc_eB pc_map pc_phases]. auto 10. }
  cbn [fst snd]. split; [exact Q|]. rewrite (compute_scale z q q2 phs b b2 m m2 Q B M V).
  destruct (compute_peaks z q phs b m) as [rows|e'] eqn:EC; cbn [rmap bind].
  2:{ split; [intros e E; exact E|]. intros pd E; discriminate. }
  split; [intros e E; discriminate|]. intros pd E. apply ok_inj in E. subst pd. eexists. split; [reflexivity|]. cbn [pd_peaks].
  apply compute_peaks_inv in EC as (rs & cs & vs & ER & _ & _ & _ & ->). apply rows10_len in ER.
  assert (HL : forall r, In r (map (fun t0 => full_row z b m (fst (fst t0)) (snd (fst t0)) (snd t0)) (zip3 rs cs vs)) ->
     exists r' c0 v0, List.length r' = 10%nat /\ r = full_row z b m r' c0 v0).
  { intros r Hr. apply in_map_iff in Hr as (((r' & c0) & v0) & <- & Hi). cbn [fst snd]. exists r', c0, v0. split; [|reflexivity].
    rewrite Forall_forall in ER. apply ER. apply zip3_in in Hi as (k & Hk & _). eapply nth_error_In; eauto. }
  set (rows := map _ (zip3 rs cs vs)) in *. clearbody rows. rewrite filter_map.
  rewrite (filter_ext_in (fun r => illuminated b2 (grow s r)) (illuminated b)).
  2:{ intros r Hr. apply HL in Hr as (r' & c0 & v0 & L & ->). now apply (lit_scale z b b2 m). }
  rewrite map_mapi. split.
  - apply mapi_map_ext. intros k r Hr. apply filter_In in Hr as (Hr & _). apply HL in Hr as (r' & c0 & v0 & L & ->).
    assert (LF : List.length (full_row z b m r' c0 v0) = 24%nat) by (unfold full_row, row24; cbv zeta; rewrite !app_length, !map_length, L; reflexivity).
    unfold grow, mapi. rewrite mapi_app', LF. cbn [mapi_from Nat.add cf]. now rewrite nmul_1.
  - apply Forall_forall. intros r Hr. apply In_nth_error in Hr as (k & Hk). rewrite mapi_nth_error in Hk.
    destruct (nth_error (filter (illuminated b) rows) k) as [o|] eqn:Eo; [|discriminate]. cbn [option_map] in Hk. apply some_inj in Hk || (injection Hk as Hk).
    apply nth_error_In, filter_In in Eo as (Ho & _). apply HL in Ho as (r' & c0 & v0 & L & ->). exists r', c0, v0, (Fin (INR k)). split; [exact L|]. now symmetry.
Qed.
End Scale.
