(** * Proofs: two copies of the example crystal in the same beam (C90, non-vacuity and the converse). *)
From Verif Require Import Vec Spec MMotion PMotion MLaue PLaue MMesh SMesh PMesh MScattering SScattering PScattering.
From Verif Require Import MStrain SStrain PStrain MBeam SBeam PBeam MPolycrystal SPolycrystal SEvents PPolycrystal PPolycrystal2 PPolycrystal3 PEvents.
From Verif Require Import MDetector SDetector PDetector PDetector2 PDetector3 PDetector4 MClip MRender SRender PRender PRender2 PRender3 SEnd PEnd PEnd2 SJoin PJoin PJoin2 PJoin3.
From Coq Require Import Permutation.
Open Scope list_scope. Open Scope R_scope.
Local Notation len := List.length.

Lemma ex_joint planes : exists me p mej pj, build_mesh ex_coord ex_enod = Ok me /\ reachable_pc (ex_xtal planes) p /\ pc_map p = MapTensor [0] /\ pc_phases p = [ex_phase] /\
  pc_U p = [mI] /\ pc_eB p = [mI] /\ pc_mesh_lab p = me /\ me_espherecentroids me = [V3 7 1 (9/4)] /\
  build_mesh (ex_coord ++ ex_coord) [(0, 1, 2, 3); (4, 5, 6, 7)]%nat = Ok mej /\ reachable_pc (ex_xtal planes) pj /\ joined p p pj.
Proof.
  destruct (ex_pc planes) as (me & p & H1 & H2 & H3 & H4 & H5 & H6 & H7 & H8 & H9 & H10).
  assert (H2' : make_polycrystal (ex_xtal planes) me (Stack [mI]) (Stack [mzero]) [ex_phase] (Some [0]) = Ok p).
  { rewrite <- H2. unfold make_polycrystal. destruct (build_mesh_inv _ _ _ H1) as (ts & ss & ET & ES & Eme). rewrite Eme. cbn [me_enod me_coord ex_enod List.length instantiate_mats Nat.eqb repeat]. reflexivity. }
  destruct (pC90_built_together (ex_xtal planes) ex_coord ex_coord ex_enod ex_enod me me [mI] [mI] [mzero] [mzero] [ex_phase] [0] [0] p p eq_refl eq_refl H1 H1 H2' H2') as (mej & pj & B & M & J).
  exists me, p, mej, pj. repeat (split; auto).
  apply (rpc_make _ _ _ mej [] mej (Stack ([mI] ++ [mI])) (Stack ([mzero] ++ [mzero])) [ex_phase] (Some ([0] ++ [0])) pj B eq_refl); auto. repeat constructor.
Qed.
(** The hypotheses are met: a table with rows, its double, and their pictures. *)
Lemma xC90_two_crystals : exists e z x p1 p2 p b m lo hi pd1 pd2 pd s1 s2 s d im1 im2 im out1 out2 out,
  reachable_pc x p1 /\ reachable_pc x p2 /\ reachable_pc x p /\ joined p1 p2 p /\
  diffract z x p1 b m lo hi None = (Ok pd1, s1) /\ diffract z x p2 b m lo hi None = (Ok pd2, s2) /\ diffract z x p b m lo hi None = (Ok pd, s) /\
  render e d pd1 1 "micro" None 1 = Ok (im1, out1) /\ render e d pd2 1 "micro" None 1 = Ok (im2, out2) /\ render e d pd 1 "micro" None 1 = Ok (im, out) /\
  built d /\ pd_peaks pd1 <> [].
Proof.
  destruct big_beam as (b & Hb & Hk & Hin). destruct (ex_joint two_planes) as (me & p & mej & pj & H1 & H3 & H4 & H5 & H6 & H7 & H8 & H9 & HB & HR & J).
  pose proof (ex_outcome two_planes me p b Hk H3 H4 H5 H6 H7 H8) as O. pose proof (ex_after two_planes p b ex_motion 0 1 H5) as EA.
  destruct (diffract false (ex_xtal two_planes) p b ex_motion 0 1 None) as [r p'] eqn:D. destruct O as (_ & O & Oph). cbn [snd] in EA.
  destruct O as (pd & ->). { cbn [map two_planes list_sum fold_right]. now rewrite refl_pos, refl_neg. }
  destruct (pC90_joint_table _ _ _ _ _ _ _ _ _ _ _ _ _ H3 H3 J D D) as (pdj & s & part1 & part2 & DJ & _).
  destruct side_detector as (d & Bd & C0 & C1 & C2 & F1 & F2 & F3).
  set (e := REnv false 1 1 (fun _ => 0) (fun _ => []) big_qhull (fun _ => None) (fun _ => Err ValueError) (fun _ _ => Err ValueError) (fun _ _ _ => [])).
  assert (Hf : fresh pd) by (apply (pC32_diffract_tables_fresh false (ex_xtal two_planes) p b ex_motion 0 1 None); now rewrite D).
  assert (Hfj : fresh pdj) by (apply (pC32_diffract_tables_fresh false (ex_xtal two_planes) pj b ex_motion 0 1 None); now rewrite DJ).
  destruct (pC39_micro_never_fails e d pd 1%Z None 1 Hf) as (im & out & HI). destruct (pC39_micro_never_fails e d pdj 1%Z None 1 Hfj) as (imj & outj & HIj).
  exists e, false, (ex_xtal two_planes), p, p, pj, b, ex_motion, 0, 1, pd, pd, pdj, p', p', s, d, im, im, imj, out, out, outj.
  repeat (split; auto).
  intros E0.
  assert (A : in_phase p 0 0) by (unfold in_phase; now rewrite H4).
  assert (B : plane_of (setup_planes (ex_xtal two_planes) ex_phase (b_wavelength b) 0 1) (V3 (-1) 1 0) 1).
  { exists two_planes, 0%nat. repeat split. }
  assert (C : scattering_vector p 0 (V3 (-1) 1 0) (V3 (-1) 1 0)).
  { exists mI, mI. rewrite H6, H7. repeat split. now rewrite !mv_I. }
  assert (E : motion_rotate ex_motion (P1 (V3 (-1) 1 0)) (S0 0) = Ok (P1 (V3 (-1) 1 0))).
  { rewrite rotate_P1_S0. do 2 f_equal. apply rot_at_0. }
  assert (F : laue_condition (b_wave_vector b) (V3 (-1) 1 0)).
  { unfold laue_condition. rewrite Hk. unfold norm. f_equal. vunf. lra. }
  assert (G : ~ laue_condition (b_wave_vector b) (right_handed_rotation (V3 0 0 1) PI (V3 (-1) 1 0))).
  { unfold laue_condition. rewrite Hk, <- rod_spec by apply unit_ez. unfold rod_matrix, rod_K2, rod_K. rewrite sin_PI, cos_PI.
    unfold norm. intros E1. apply sqrt_inj in E1; [|apply normsq_nonneg|apply normsq_nonneg]. revert E1. vunf. lra. }
  assert (I : nth_error (me_espherecentroids (pc_mesh_lab p)) 0 = Some (V3 7 1 (9/4))) by (rewrite H8, H9; reflexivity).
  assert (JJ : motion_call ex_motion (P1 (V3 7 1 (9/4))) (S0 0) = Ok (P1 (V3 7 1 (9/4)))).
  { rewrite call_P1_S0. do 2 f_equal. apply move_at_0. }
  assert (K : strictly_inside (b_halfspaces b) (V3 7 1 (9/4))) by (apply Hin; cbn [vx vy vz]; rewrite Rabs_right; lra).
  assert (T0 : 0 <= 0 <= 1) by lra.
  destruct (pC12_complete _ _ _ _ _ _ _ _ _ _ _ _ _ _ _ _ _ _ _ _ _ _ _ _ H3 ex_motion_ok unit_ez D A Oph B C T0 E F G I JJ K) as (row & Hr & _).
  rewrite E0 in Hr. exact Hr.
Qed.
(** The converse fails: two crystals with one reflection each, for each of which diffract raises, together give a table. *)
Lemma pC90_parts_return_refuted : exists x p1 p2 p b m, xtal_ok x /\ reachable_pc x p1 /\ reachable_pc x p2 /\ reachable_pc x p /\ joined p1 p2 p /\
  fst (diffract false x p1 b m 0 1 None) = Err IndexError /\ fst (diffract false x p2 b m 0 1 None) = Err IndexError /\
  exists pd, fst (diffract false x p b m 0 1 None) = Ok pd.
Proof.
  destruct big_beam as (b & Hb & Hk & Hin). destruct (ex_joint one_plane) as (me & p & mej & pj & H1 & H3 & H4 & H5 & H6 & H7 & H8 & H9 & HB & HR & J).
  pose proof (ex_outcome one_plane me p b Hk H3 H4 H5 H6 H7 H8) as O.
  exists (ex_xtal one_plane), p, p, pj, b, ex_motion. split; [apply ex_xtal_ok|]. do 4 (split; auto).
  assert (E : fst (diffract false (ex_xtal one_plane) p b ex_motion 0 1 None) = Err IndexError).
  { destruct (diffract _ _ _ _ _ _ _ _) as [r p']. destruct O as (O & _). cbn [fst]. apply O. cbn [map one_plane list_sum fold_right]. now rewrite refl_pos. }
  split; [exact E|]. split; [exact E|].
  destruct J as (J1 & J2 & J3 & J4 & (l1 & l2 & J5 & J6 & J7 & J8 & J9) & J10 & J11).
  assert (l1 = [0] /\ l2 = [0]) as [-> ->] by (split; congruence).
  pose proof (pC13_outcome false (ex_xtal one_plane) pj b ex_motion 0 1 None [0; 0] HR (ex_xtal_ok one_plane) J7 I) as H.
  assert (EA := ex_after one_plane pj b ex_motion 0 1 (eq_trans (eq_sym J10) H5)).
  destruct (diffract false (ex_xtal one_plane) pj b ex_motion 0 1 None) as [r p']. cbn [fst snd] in *. destruct H as [_ H].
  destruct H as (pd & ->); [|eauto]. subst p'. unfold event_count. cbn [pc_phases]. unfold mapi. cbn [mapi_from list_sum fold_right]. rewrite Nat.add_0_r.
  unfold phase_events. cbn [pc_map]. rewrite J7. cbn [map_values].
  cbn [app]. replace (where_eq [0; 0] 0) with [0%nat; 1%nat] by (unfold where_eq, mapi; cbn; destruct (Req_EM_T 0 0); [reflexivity|contradiction]).
  unfold used_planes, setup_planes. cbn [ph_hkl ph_cif ex_phase make_phase ph_sf ex_xtal x_genhkl].
  cbn [map list_sum fold_right one_plane]. unfold element_events. cbn [pc_U pc_eB]. rewrite J1, J2, H6, H7. cbn [app nth_error map list_sum fold_right fst].
  rewrite !mv_I, refl_pos by exact Hk. discriminate.
Qed.
