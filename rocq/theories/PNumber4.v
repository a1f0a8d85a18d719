(** * Proofs: a sample of two crystals with exchanged numbers (C91, non-vacuity). *)
From Verif Require Import Vec Spec MMotion PMotion MLaue PLaue MMesh SMesh PMesh MScattering SScattering PScattering.
From Verif Require Import MStrain SStrain PStrain MBeam SBeam PBeam MPolycrystal SPolycrystal SEvents PPolycrystal PPolycrystal2 PPolycrystal3 PEvents.
From Verif Require Import MDetector SDetector PDetector PDetector2 PDetector3 PDetector4 MClip MRender SRender PRender PRender2 PRender3 SEnd PEnd PEnd2 SJoin PJoin PJoin2 PJoin3 PJoin4 SNumber PNumber PNumber2 PNumber3.
From Coq Require Import Permutation.
Open Scope list_scope. Open Scope R_scope.
Local Notation len := List.length.

Lemma ex_rows p b p' pd : b_wave_vector b = V3 1 0 0 ->
  (forall v, -10 < vx v < 10 -> -10 < vy v < 10 -> -10 < vz v < 10 -> strictly_inside (b_halfspaces b) v) ->
  reachable_pc (ex_xtal two_planes) p -> pc_map p = MapTensor [0] -> pc_U p = [mI] -> pc_eB p = [mI] ->
  nth_error (me_espherecentroids (pc_mesh_lab p)) 0 = Some (V3 7 1 (9/4)) ->
  diffract false (ex_xtal two_planes) p b ex_motion 0 1 None = (Ok pd, p') ->
  nth_error (pc_phases p') 0 = Some (setup_planes (ex_xtal two_planes) ex_phase (b_wavelength b) 0 1) -> pd_peaks pd <> [].
Proof.
  intros Hk Hin H3 H4 H6 H7 I D Oph E0.
  assert (A : in_phase p 0 0) by (unfold in_phase; now rewrite H4).
  assert (B : plane_of (setup_planes (ex_xtal two_planes) ex_phase (b_wavelength b) 0 1) (V3 (-1) 1 0) 1).
  { exists two_planes, 0%nat. repeat split. }
  assert (C : scattering_vector p 0 (V3 (-1) 1 0) (V3 (-1) 1 0)).
  { exists mI, mI. rewrite H6, H7. repeat split. now rewrite !mv_I. }
  assert (E : motion_rotate ex_motion (P1 (V3 (-1) 1 0)) (S0 0) = Ok (P1 (V3 (-1) 1 0))).
  { rewrite rotate_P1_S0. do 2 f_equal. apply rot_at_0. }
  assert (F : laue_condition (b_wave_vector b) (V3 (-1) 1 0)).
  { unfold laue_condition. rewrite Hk. unfold norm. f_equal. vunf. lra. }
  assert (G : ~ laue_condition (b_wave_vector b) (right_handed_rotation (V3 0 0 1) PI (V3 (-1) 1 0))).
  { unfold laue_condition. rewrite Hk, <- rod_spec by apply unit_ez. unfold rod_matrix, rod_K2, rod_K. rewrite sin_PI, cos_PI.
    unfold norm. intros E1. apply sqrt_inj in E1; [|apply normsq_nonneg|apply normsq_nonneg]. revert E1. vunf. lra. }
  assert (JJ : motion_call ex_motion (P1 (V3 7 1 (9/4))) (S0 0) = Ok (P1 (V3 7 1 (9/4)))).
  { rewrite call_P1_S0. do 2 f_equal. apply move_at_0. }
  assert (K : strictly_inside (b_halfspaces b) (V3 7 1 (9/4))) by (apply Hin; cbn [vx vy vz]; lra).
  assert (T0 : 0 <= 0 <= 1) by lra.
  destruct (pC12_complete _ _ _ _ _ _ _ _ _ _ _ _ _ _ _ _ _ _ _ _ _ _ _ _ H3 ex_motion_ok unit_ez D A Oph B C T0 E F G I JJ K) as (row & Hr & _).
  rewrite E0 in Hr. exact Hr.
Qed.
Definition swap8 (i : nat) : nat := ((i + 4) mod 8)%nat.
Definition swap2 (e : nat) : nat := (1 - e)%nat.
Lemma swap8_ok : new_numbers 8 swap8.
Proof.
  split; [intros e _; unfold swap8; apply Nat.mod_upper_bound; lia|].
  intros e e' H1 H2. do 8 (destruct e as [|e]; [do 8 (destruct e' as [|e']; [vm_compute; lia|]); lia|]). lia.
Qed.
Lemma swap2_ok : new_numbers 2 swap2.
Proof. unfold swap2. split; intros; lia. Qed.
Lemma id_ok n : new_numbers n (fun i => i).
Proof. split; auto. Qed.
Lemma rearranged_swap2 {A} (a c : A) : rearranged swap2 [a; c] [c; a].
Proof. split; [reflexivity|]. intros [|[|e]] He; cbn in *; try reflexivity; lia. Qed.
(** The hypotheses are met: two crystals, one beside the other, with rows in the table, and the sample with vertices and
    elements in exchanged order. *)
Lemma xC91_two_crystals : exists e z x p q s u b m pd pd' p' q' d im im' out out',
  reachable_pc x p /\ reachable_pc x q /\ renumbered s u p q /\ pc_mesh_lab p <> pc_mesh_lab q /\
  diffract z x p b m 0 1 None = (Ok pd, p') /\ diffract z x q b m 0 1 None = (Ok pd', q') /\
  render e d pd 1 "micro" None 1 = Ok (im, out) /\ render e d pd' 1 "micro" None 1 = Ok (im', out') /\
  built d /\ pd_peaks pd <> [].
Proof.
  destruct big_beam as (b & Hb & Hk & Hin). destruct (ex_pc two_planes) as (me & p & H1 & H2 & H3 & H4 & H5 & H6 & H7 & H8 & H9 & H10).
  set (sh1 := aff mI (V3 1 0 0)).
  assert (RI : is_rotation mI) by (split; [|split]; vunf; try (f_equal; f_equal; ring); ring).
  assert (HE : ex_enod <> []) by discriminate.
  pose proof (build_moved mI (V3 1 0 0) ex_coord ex_enod me RI HE H1) as B2. fold sh1 in B2. set (me2 := moved _ _ _ me) in B2.
  assert (EN : me_enod me = ex_enod) by (destruct (build_mesh_inv _ _ _ H1) as (ts & ss & ET & ES & Eme); now rewrite Eme).
  assert (Mk : forall me0 c, build_mesh c ex_enod = Ok me0 -> exists p0, make_polycrystal (ex_xtal two_planes) me0 (Stack [mI]) (Stack [mzero]) [ex_phase] (Some [0]) = Ok p0 /\
    pc_map p0 = MapTensor [0] /\ pc_phases p0 = [ex_phase] /\ pc_U p0 = [mI] /\ pc_eB p0 = [mI] /\ pc_mesh_lab p0 = me0 /\ reachable_pc (ex_xtal two_planes) p0).
  { intros me0 c Hb0. destruct (build_mesh_inv _ _ _ Hb0) as (ts & ss & ET & ES & Eme).
    assert (M : exists p0, make_polycrystal (ex_xtal two_planes) me0 (Stack [mI]) (Stack [mzero]) [ex_phase] (Some [0]) = Ok p0 /\
      pc_map p0 = MapTensor [0] /\ pc_phases p0 = [ex_phase] /\ pc_U p0 = [mI] /\ pc_eB p0 = [mI] /\ pc_mesh_lab p0 = me0).
    { assert (Ec : me_coord me0 = c) by now rewrite Eme. assert (En : me_enod me0 = ex_enod) by now rewrite Eme.
      unfold make_polycrystal. rewrite Ec, En, ET. cbn [bind]. change (len ex_enod) with 1%nat. cbn [List.length instantiate_mats Nat.eqb bind instantiate_phase].
      pose proof ex_eB as XE. cbn [repeat] in XE. rewrite XE. cbn [bind]. eexists. split; [reflexivity|]. repeat split. }
    destruct M as (p0 & M0 & M1 & M2 & M3 & M4 & M5). exists p0. repeat (split; auto).
    apply (rpc_make _ c ex_enod me0 [] me0 (Stack [mI]) (Stack [mzero]) [ex_phase] (Some [0]) p0); auto. repeat constructor. }
  destruct (Mk _ _ H1) as (p1 & P11 & P12 & P13 & P14 & P15 & P16 & P17). destruct (Mk _ _ B2) as (p2 & P21 & P22 & P23 & P24 & P25 & P26 & P27). clear Mk.
  destruct (pC90_built_together (ex_xtal two_planes) ex_coord (map sh1 ex_coord) ex_enod ex_enod me me2 [mI] [mI] [mzero] [mzero] [ex_phase] [0] [0] p1 p2 eq_refl eq_refl H1 B2 P11 P21) as (mej & pj & BJ & MJ & J).
  change (len ex_coord) with 4%nat in BJ. cbn [app map ex_enod shift_nodes Nat.add] in BJ, MJ.
  assert (RJ : reachable_pc (ex_xtal two_planes) pj).
  { eapply (rpc_make _ _ _ mej [] mej); [exact BJ|reflexivity| |exact MJ]. repeat constructor. }
  destruct (pC91_built_renumbered (ex_xtal two_planes) swap8 swap2 (fun i => i) (ex_coord ++ map sh1 ex_coord) (map sh1 ex_coord ++ ex_coord)
     [(0, 1, 2, 3); (4, 5, 6, 7)]%nat [(0, 1, 2, 3); (4, 5, 6, 7)]%nat mej [mI; mI] [mI; mI] [mzero; mzero] [mzero; mzero] [ex_phase] [ex_phase] [0; 0] [0; 0] pj
     swap8_ok swap2_ok (id_ok _)) as (meq & q & BQ & MQ & RQ); [| | | | | |exact BJ|exact MJ|].
  { split; [reflexivity|]. intros e He. change (len (ex_coord ++ map sh1 ex_coord)) with 8%nat in He. do 8 (destruct e as [|e]; [reflexivity|]). lia. }
  { apply (rearranged_swap2 (4, 5, 6, 7)%nat (0, 1, 2, 3)%nat). } { apply rearranged_swap2. } { apply rearranged_swap2. } { split; [reflexivity|auto]. }
  { split; [reflexivity|]. split; [reflexivity|]. intros [|[|e]] i He Hi; cbn [swap2 Nat.sub nth_error]; try tauto. cbn in He. lia. }
  assert (RQQ : reachable_pc (ex_xtal two_planes) q).
  { eapply (rpc_make _ _ _ meq [] meq); [exact BQ|reflexivity| |exact MQ]. repeat constructor. }
  pose proof (ex_outcome two_planes me p1 b Hk P17 P12 P13 P14 P15 P16) as O1. destruct (diffract false (ex_xtal two_planes) p1 b ex_motion 0 1 None) as [r1 p1'] eqn:D1. destruct O1 as (_ & O1 & Oph1).
  destruct O1 as (pd1 & ->). { cbn [map two_planes list_sum fold_right]. now rewrite refl_pos, refl_neg. }
  pose proof (ex_outcome two_planes me2 p2 b Hk P27 P22 P23 P24 P25 P26) as O2. destruct (diffract false (ex_xtal two_planes) p2 b ex_motion 0 1 None) as [r2 p2'] eqn:D2. destruct O2 as (_ & O2 & _).
  destruct O2 as (pd2 & ->). { cbn [map two_planes list_sum fold_right]. now rewrite refl_pos, refl_neg. }
  destruct (pC90_joint_table _ _ _ _ _ _ _ _ _ _ _ _ _ P17 P27 J D1 D2) as (pdj & sj & part1 & part2 & DJ & PJ & FJ & _).
  destruct (pC91_same_table _ _ _ _ _ _ _ _ _ _ _ _ _ RJ RQ DJ) as (pdq & sq & rows & DQ & _).
  destruct side_detector as (d & Bd & C0 & C1 & C2 & F1 & F2 & F3).
  set (e := REnv false 1 1 (fun _ => 0) (fun _ => []) big_qhull (fun _ => None) (fun _ => Err ValueError) (fun _ _ => Err ValueError) (fun _ _ _ => [])).
  assert (Hf : fresh pdj) by (apply (pC32_diffract_tables_fresh false (ex_xtal two_planes) pj b ex_motion 0 1 None); now rewrite DJ).
  assert (Hfq : fresh pdq) by (apply (pC32_diffract_tables_fresh false (ex_xtal two_planes) q b ex_motion 0 1 None); now rewrite DQ).
  destruct (pC39_micro_never_fails e d pdj 1%Z None 1 Hf) as (im & out & HI). destruct (pC39_micro_never_fails e d pdq 1%Z None 1 Hfq) as (imq & outq & HIq).
  exists e, false, (ex_xtal two_planes), pj, q, swap2, (fun i => i), b, ex_motion, pdj, pdq, sj, sq, d, im, imq, out, outq.
  split; [exact RJ|]. split; [exact RQQ|]. split; [exact RQ|]. split.
  { assert (X1 : pc_mesh_lab pj = mej) by (apply make_pc_inv in MJ as (? & ? & ? & ? & ? & _ & _ & _ & _ & _ & ->); reflexivity).
    assert (X2 : pc_mesh_lab q = meq) by (apply make_pc_inv in MQ as (? & ? & ? & ? & ? & _ & _ & _ & _ & _ & ->); reflexivity).
    rewrite X1, X2. intros E. assert (Y1 : me_coord mej = ex_coord ++ map sh1 ex_coord) by (destruct (build_mesh_inv _ _ _ BJ) as (? & ? & _ & _ & ->); reflexivity).
    assert (Y2 : me_coord meq = map sh1 ex_coord ++ ex_coord) by (destruct (build_mesh_inv _ _ _ BQ) as (? & ? & _ & _ & ->); reflexivity).
    rewrite E, Y2 in Y1. unfold ex_coord in Y1. cbn [map app] in Y1. apply (f_equal (fun l => vx (hd vzero l))) in Y1. cbn [hd] in Y1. unfold sh1, aff in Y1. revert Y1. vunf. lra. }
  repeat (split; [assumption|]).
  assert (NE : pd_peaks pd1 <> []).
  { apply (ex_rows p1 b p1' pd1 Hk); auto. - intros v V1 V2 V3. apply Hin; apply Rabs_def1; lra. - rewrite P16, H9. reflexivity. }
  intros E0. rewrite E0 in PJ. apply Permutation_nil in PJ. destruct FJ; [now apply NE|discriminate].
Qed.
