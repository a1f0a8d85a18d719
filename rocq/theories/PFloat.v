(** * Rounded arithmetic: bridge from SpecFloat to reals, through Flocq. *)
From Coq Require Import ZArith Reals Lra Lia Psatz Floats.SpecFloat.
From Flocq Require Import Core Relative BinarySingleNaN.
From Verif Require Import MFloat MFloat2 SFloat.
Open Scope R_scope.

#[local] Instance Hprec : FLX.Prec_gt_0 53 := eq_refl _.
#[local] Instance Hmax : Prec_lt_emax 53 1024 := eq_refl _.
Notation bf := (binary_float 53 1024).
Definition rnd (r : R) : R := round radix2 (FLT_exp (-1074) 53) ZnearestE r.

Lemma round_nearest_even_equiv s m l : round_nearest_even m l = choice_mode mode_NE s m l.
Proof.
  case l; [reflexivity|intro c]. case c; [ | reflexivity..].
  now simpl; unfold Round.cond_incr; case Z.even.
Qed.
Lemma binary_round_aux_equiv sx mx ex lx :
  SpecFloat.binary_round_aux 53 1024 sx mx ex lx = binary_round_aux 53 1024 mode_NE sx mx ex lx.
Proof.
  unfold SpecFloat.binary_round_aux, binary_round_aux. set (mrse' := shr_fexp _ _ _).
  case mrse'; intros mrs' e'; simpl. now rewrite (round_nearest_even_equiv sx).
Qed.
Lemma binary_round_equiv s m e :
  SpecFloat.binary_round 53 1024 s m e = binary_round 53 1024 mode_NE s m e.
Proof.
  unfold SpecFloat.binary_round, binary_round, shl_align_fexp.
  set (mez := shl_align _ _ _); case mez as [mz ez]. apply binary_round_aux_equiv.
Qed.
Lemma binary_normalize_equiv m e szero :
  SpecFloat.binary_normalize 53 1024 m e szero
  = B2SF (binary_normalize 53 1024 Hprec Hmax mode_NE m e szero).
Proof.
  case m as [ | p | p].
  - now simpl.
  - simpl; rewrite B2SF_SF2B; apply binary_round_equiv.
  - simpl; rewrite B2SF_SF2B; apply binary_round_equiv.
Qed.
Lemma mul_bridge (x y : bf) : f64_mul (B2SF x) (B2SF y) = B2SF (Bmult mode_NE x y).
Proof.
  unfold f64_mul. case x as [sx|sx| |sx mx ex Bx]; case y as [sy|sy| |sy my ey By]; [now trivial.. | ].
  simpl. rewrite B2SF_SF2B. apply binary_round_aux_equiv.
Qed.
Lemma add_bridge (x y : bf) : f64_add (B2SF x) (B2SF y) = B2SF (Bplus mode_NE x y).
Proof.
  unfold f64_add. case x as [sx|sx| |sx mx ex Bx]; case y as [sy|sy| |sy my ey By];
    [now (trivial || simpl; case Bool.eqb).. | ].
  apply binary_normalize_equiv.
Qed.
Lemma sub_bridge (x y : bf) : f64_sub (B2SF x) (B2SF y) = B2SF (Bminus mode_NE x y).
Proof.
  unfold f64_sub. case x as [sx|sx| |sx mx ex Bx]; case y as [sy|sy| |sy my ey By];
    [now (trivial || simpl; case Bool.eqb).. | ].
  simpl. unfold Zminus. rewrite <- cond_Zopp_negb. apply binary_normalize_equiv.
Qed.
Lemma div_bridge (x y : bf) : f64_div (B2SF x) (B2SF y) = B2SF (Bdiv mode_NE x y).
Proof.
  unfold f64_div. case x as [sx|sx| |sx mx ex Bx]; case y as [sy|sy| |sy my ey By];
    [now (trivial || simpl; case Bool.eqb).. | ].
  simpl. rewrite B2SF_SF2B. set (melz := SFdiv_core_binary _ _ _ _ _ _).
  case melz as [[mz ez] lz]. apply binary_round_aux_equiv.
Qed.

(** ** Values *)
Lemma value_B2R (x : bf) : double_value (B2SF x) = B2R x.
Proof.
  destruct x as [s|s| |s m e B]; try reflexivity. simpl. unfold F2R, Fnum, Fexp.
  rewrite bpow_powerRZ. destruct s; simpl; [|reflexivity].
  change (Z.neg m) with (- Z.pos m)%Z. rewrite opp_IZR. ring.
Qed.
Lemma double_lift x : finite_double x -> exists b : bf, B2SF b = x /\ is_finite b = true.
Proof.
  intros [V F]. exists (SF2B x V). split; [apply B2SF_SF2B|]. rewrite is_finite_SF2B.
  destruct x; simpl in *; auto; contradiction.
Qed.
Lemma double_of (b : bf) : is_finite b = true -> finite_double (B2SF b).
Proof. intros F. split; [apply valid_binary_B2SF|]. destruct b; simpl in *; auto; discriminate. Qed.
Definition fmt (r : R) : Prop := generic_format radix2 (FLT_exp (-1074) 53) r.
Lemma double_fmt x : finite_double x -> fmt (double_value x) /\ Rabs (double_value x) < bpow radix2 1024.
Proof.
  intros F. destruct (double_lift x F) as (b & <- & Fb). rewrite value_B2R. split.
  - apply (generic_format_B2R 53 1024 b).
  - apply (abs_B2R_lt_emax 53 1024 b).
Qed.
(** the result of an operation: rounded to nearest when it does not overflow *)
Definition rounds_to (z : spec_float) (r : R) : Prop := finite_double z /\ double_value z = rnd r.
Lemma div_val x y : finite_double x -> finite_double y -> double_value y <> 0 ->
  Rabs (rnd (double_value x / double_value y)) < bpow radix2 1024 ->
  rounds_to (f64_div x y) (double_value x / double_value y).
Proof.
  intros Fx Fy N B. destruct (double_lift x Fx) as (a & <- & Fa). destruct (double_lift y Fy) as (b & <- & Fb).
  rewrite !value_B2R in *. rewrite div_bridge.
  pose proof (Bdiv_correct 53 1024 Hprec Hmax mode_NE a b N) as C.
  change (round radix2 (SpecFloat.fexp 53 1024) (round_mode mode_NE) (B2R a / B2R b)) with (rnd (B2R a / B2R b)) in C.
  rewrite Rlt_bool_true in C by exact B. destruct C as (C1 & C2 & _). split.
  - apply double_of. rewrite C2. exact Fa.
  - rewrite value_B2R. exact C1.
Qed.
Lemma mul_val x y : finite_double x -> finite_double y ->
  Rabs (rnd (double_value x * double_value y)) < bpow radix2 1024 ->
  rounds_to (f64_mul x y) (double_value x * double_value y).
Proof.
  intros Fx Fy B. destruct (double_lift x Fx) as (a & <- & Fa). destruct (double_lift y Fy) as (b & <- & Fb).
  rewrite !value_B2R in *. rewrite mul_bridge.
  pose proof (Bmult_correct 53 1024 Hprec Hmax mode_NE a b) as C.
  change (round radix2 (SpecFloat.fexp 53 1024) (round_mode mode_NE) (B2R a * B2R b)) with (rnd (B2R a * B2R b)) in C.
  rewrite Rlt_bool_true in C by exact B. destruct C as (C1 & C2 & _). split.
  - apply double_of. rewrite C2, Fa, Fb. reflexivity.
  - rewrite value_B2R. exact C1.
Qed.
Lemma add_val x y : finite_double x -> finite_double y ->
  Rabs (rnd (double_value x + double_value y)) < bpow radix2 1024 ->
  rounds_to (f64_add x y) (double_value x + double_value y).
Proof.
  intros Fx Fy B. destruct (double_lift x Fx) as (a & <- & Fa). destruct (double_lift y Fy) as (b & <- & Fb).
  rewrite !value_B2R in *. rewrite add_bridge.
  pose proof (Bplus_correct 53 1024 Hprec Hmax mode_NE a b Fa Fb) as C.
  change (round radix2 (SpecFloat.fexp 53 1024) (round_mode mode_NE) (B2R a + B2R b)) with (rnd (B2R a + B2R b)) in C.
  rewrite Rlt_bool_true in C by exact B. destruct C as (C1 & C2 & _). split.
  - apply double_of, C2.
  - rewrite value_B2R. exact C1.
Qed.
Lemma sub_val x y : finite_double x -> finite_double y ->
  Rabs (rnd (double_value x - double_value y)) < bpow radix2 1024 ->
  rounds_to (f64_sub x y) (double_value x - double_value y).
Proof.
  intros Fx Fy B. destruct (double_lift x Fx) as (a & <- & Fa). destruct (double_lift y Fy) as (b & <- & Fb).
  rewrite !value_B2R in *. rewrite sub_bridge.
  pose proof (Bminus_correct 53 1024 Hprec Hmax mode_NE a b Fa Fb) as C.
  change (round radix2 (SpecFloat.fexp 53 1024) (round_mode mode_NE) (B2R a - B2R b)) with (rnd (B2R a - B2R b)) in C.
  rewrite Rlt_bool_true in C by exact B. destruct C as (C1 & C2 & _). split.
  - apply double_of, C2.
  - rewrite value_B2R. exact C1.
Qed.
Lemma ltb_val x y : finite_double x -> finite_double y ->
  (SFltb x y = true <-> double_value x < double_value y).
Proof.
  intros Fx Fy. destruct (double_lift x Fx) as (a & <- & Fa). destruct (double_lift y Fy) as (b & <- & Fb).
  rewrite !value_B2R. change (SFltb (B2SF a) (B2SF b)) with (Bltb a b). rewrite Bltb_correct by assumption.
  destruct (Rlt_bool_spec (B2R a) (B2R b)); split; intros; auto; try lra; discriminate.
Qed.

(** ** Rounding *)
Lemma rnd_fmt r : fmt r -> rnd r = r.
Proof. intros F. apply round_generic; [typeclasses eauto|exact F]. Qed.
Lemma rnd_le a b : a <= b -> rnd a <= rnd b.
Proof. apply round_le; typeclasses eauto. Qed.
Lemma rnd_0 : rnd 0 = 0. Proof. apply round_0. typeclasses eauto. Qed.
Lemma rnd_abs_le r y : fmt y -> Rabs r <= y -> Rabs (rnd r) <= y.
Proof. intros. apply abs_round_le_generic; auto; typeclasses eauto. Qed.
(** integers of at most 53 bits are doubles *)
Lemma fmt_int n : (Z.abs n <= 2 ^ 53)%Z -> fmt (IZR n).
Proof.
  intros H. destruct (Z.eq_dec (Z.abs n) (2 ^ 53)) as [E|E].
  - assert (B : fmt (bpow radix2 53)) by (apply generic_format_bpow; unfold FLT_exp; lia).
    rewrite <- (IZR_Zpower radix2) in B by lia. change (radix2 ^ 53)%Z with (2 ^ 53)%Z in B.
    destruct (Z.le_ge_cases 0 n).
    + replace n with (2 ^ 53)%Z by lia. exact B.
    + replace n with (- 2 ^ 53)%Z by lia. rewrite opp_IZR. apply generic_format_opp, B.
  - apply generic_format_FLT. exists (Float radix2 n 0); simpl; [unfold F2R; simpl; ring|lia|lia].
Qed.
Lemma bpow_big n : (Z.abs n <= 2 ^ 53)%Z -> Rabs (IZR n) < bpow radix2 1024.
Proof.
  intros H. rewrite <- abs_IZR. apply Rle_lt_trans with (IZR (2 ^ 53)); [apply IZR_le, H|].
  change (2 ^ 53)%Z with (radix2 ^ 53)%Z. rewrite IZR_Zpower by lia. apply bpow_lt. lia.
Qed.
Lemma of_Z_val n : (Z.abs n <= 2 ^ 53)%Z -> finite_double (f64_of_Z n) /\ double_value (f64_of_Z n) = IZR n.
Proof.
  intros H. unfold f64_of_Z. rewrite binary_normalize_equiv.
  pose proof (binary_normalize_correct 53 1024 Hprec Hmax mode_NE n 0 false) as C. cbv zeta in C.
  assert (E : F2R (Float radix2 n 0) = IZR n) by (unfold F2R; simpl; ring).
  rewrite E in C.
  change (round radix2 (SpecFloat.fexp 53 1024) (round_mode mode_NE) (IZR n)) with (rnd (IZR n)) in C.
  rewrite (rnd_fmt _ (fmt_int n H)) in C. rewrite Rlt_bool_true in C by (apply bpow_big, H).
  destruct C as (C1 & C2 & _). split; [apply double_of, C2|]. rewrite value_B2R. exact C1.
Qed.
Definition u : R := / 2 * bpow radix2 (- 53 + 1).
Lemma u_val : u = / 9007199254740992.
Proof. unfold u. simpl. lra. Qed.
(** relative error of one rounding in the normal range *)
Lemma rnd_rel r : bpow radix2 (-1022) <= Rabs r -> exists e, Rabs e <= u /\ rnd r = r * (1 + e).
Proof. intros H. apply (relative_error_N_FLT_ex radix2 (-1074) 53); [lia|exact H]. Qed.
(** std::ceil is the ceiling *)
Lemma ceil_val x : finite_double x -> IZR (f64_ceil x - 1) < double_value x <= IZR (f64_ceil x).
Proof.
  intros [_ F]. destruct x as [s|s| |s m e]; simpl in F; try contradiction.
  - simpl. lra.
  - unfold f64_ceil. set (v := if s then Z.neg m else Z.pos m).
    assert (E : double_value (S754_finite s m e) = IZR v * powerRZ 2 e).
    { unfold v. destruct s; simpl; [|reflexivity]. change (Z.neg m) with (- Z.pos m)%Z. rewrite opp_IZR. reflexivity. }
    rewrite E. clearbody v. destruct (Z.leb_spec 0 e) as [L|L].
    + assert (P : powerRZ 2 e = IZR (2 ^ e)).
      { change (powerRZ 2 e) with (powerRZ (IZR radix2) e). rewrite <- bpow_powerRZ, <- IZR_Zpower by lia. reflexivity. }
      rewrite P, <- mult_IZR. rewrite minus_IZR. lra.
    + set (d := (2 ^ (- e))%Z). assert (Dp : (0 < d)%Z) by (apply Z.pow_pos_nonneg; lia).
      assert (P : powerRZ 2 e = / IZR d).
      { change (powerRZ 2 e) with (powerRZ (IZR radix2) e). rewrite <- bpow_powerRZ.
        replace e with (- - e)%Z at 1 by lia. rewrite bpow_opp, <- IZR_Zpower by lia. reflexivity. }
      rewrite P. clearbody d. pose proof (Z.div_mod (- v) d) as DM. pose proof (Z.mod_pos_bound (- v) d Dp) as MB.
      set (q := (- v / d)%Z) in *. set (m' := ((- v) mod d)%Z) in *. clearbody q m'.
      assert (Ev : (v = - (d * q + m'))%Z) by lia. subst v.
      assert (DR : 0 < IZR d) by (apply IZR_lt, Dp).
      assert (M1 : 0 <= IZR m') by (apply IZR_le; lia). assert (M2 : IZR m' < IZR d) by (apply IZR_lt; lia).
      rewrite opp_IZR, plus_IZR, mult_IZR, minus_IZR, opp_IZR.
      replace (- (IZR d * IZR q + IZR m') * / IZR d) with (- IZR q - IZR m' * / IZR d) by (field; lra).
      assert (I : 0 < / IZR d) by (apply Rinv_0_lt_compat, DR).
      assert (0 <= IZR m' * / IZR d) by (apply Rmult_le_pos; lra).
      assert (IZR m' * / IZR d < 1). { apply Rmult_lt_reg_r with (IZR d); auto. rewrite Rmult_assoc, Rinv_l by lra. lra. }
      lra.
Qed.
