(** * C30, C31 in IEEE double precision. *)
From Coq Require Import ZArith Reals Lra Lia Psatz List Floats.SpecFloat.
From Flocq Require Import Core Mult_error.
From Verif Require Import Num MFloat MFloat2 SFloat PFloat MDetector SDetector PDetector PDetector2 PDetector3.
Import ListNotations.
Open Scope R_scope.

Lemma bpow_m1022_pos : 0 < bpow radix2 (-1022). Proof. apply bpow_gt_0. Qed.
Lemma bpow_small : bpow radix2 (-1022) <= / 18014398509481984.
Proof.
  apply Rle_trans with (bpow radix2 (-54)); [apply bpow_le; lia|]. simpl. lra.
Qed.
Lemma abs_pos x : 0 <= x -> Rabs x = x. Proof. apply Rabs_pos_eq. Qed.

(** the two divisions of the pixel grid *)
Lemma grid_quotient L n : finite_double L -> 0 < double_value L -> (1 <= n <= 2 ^ 50)%Z ->
  powerRZ 2 (-1022) <= double_value L / IZR n ->
  exists p q, rounds_to (f64_div L (f64_of_Z n)) (double_value L / IZR n) /\
    p = rnd (double_value L / IZR n) /\ bpow radix2 (-1022) <= p /\
    finite_double (f64_div L (f64_div L (f64_of_Z n))) /\
    double_value (f64_div L (f64_div L (f64_of_Z n))) = q /\ q = rnd (double_value L / p) /\
    Rabs (q - IZR n) < 1.
Proof.
  intros FL PL Hn HB. set (l := double_value L) in *.
  assert (N1 : 1 <= IZR n) by (apply IZR_le; lia).
  assert (N2 : IZR n <= 1125899906842624) by (apply IZR_le; lia).
  destruct (of_Z_val n) as [Fn Vn]; [lia|].
  destruct (double_fmt L FL) as [GL BL]. fold l in GL, BL.
  assert (HB' : bpow radix2 (-1022) <= l / IZR n) by (rewrite bpow_powerRZ; exact HB). clear HB.
  assert (Ql : l / IZR n <= l).
  { apply Rmult_le_reg_r with (IZR n); [lra|]. unfold Rdiv. rewrite Rmult_assoc, Rinv_l by lra. nra. }
  pose proof bpow_m1022_pos as P0.
  assert (Qp : 0 < l / IZR n) by lra.
  destruct (div_val L (f64_of_Z n)) as [F1 V1]; auto.
  { rewrite Vn. lra. }
  { rewrite Vn. fold l. apply Rle_lt_trans with (Rabs l); [|exact BL]. apply rnd_abs_le.
    - apply generic_format_abs, GL.
    - rewrite !abs_pos by lra. exact Ql. }
  rewrite Vn in V1. fold l in V1.
  destruct (rnd_rel (l / IZR n)) as (e1 & E1 & R1); [rewrite abs_pos by lra; exact HB'|].
  set (p := rnd (l / IZR n)) in *.
  assert (Pb : bpow radix2 (-1022) <= p).
  { unfold p. rewrite <- (rnd_fmt (bpow radix2 (-1022))) by (apply generic_format_bpow; unfold FLT_exp; lia).
    apply rnd_le, HB'. }
  pose proof u_val as Uv. set (uu := u) in *. clearbody uu. subst uu.
  apply Rabs_le_inv in E1.
  assert (Ep : l / p = IZR n / (1 + e1)) by (rewrite R1; field; repeat split; lra).
  set (w := / (1 + e1)).
  assert (W : 1 - / 4503599627370496 <= w <= 1 + / 4503599627370496).
  { assert (w * (1 + e1) = 1) by (unfold w; field; lra). assert (0 < w) by (apply Rinv_0_lt_compat; lra). split; nra. }
  assert (Ep2 : l / p = IZR n * w) by (rewrite Ep; reflexivity).
  assert (Lp : / 2 <= l / p <= 2251799813685248) by (rewrite Ep2; split; nra).
  destruct (rnd_rel (l / p)) as (e2 & E2 & R2).
  { rewrite abs_pos by lra. pose proof bpow_small. lra. }
  rewrite u_val in E2. apply Rabs_le_inv in E2.
  assert (Bq : Rabs (rnd (l / p)) < bpow radix2 1024).
  { apply Rle_lt_trans with (IZR (2 ^ 53)).
    - apply rnd_abs_le; [apply fmt_int; lia|]. rewrite abs_pos by lra. change (IZR (2 ^ 53)) with 9007199254740992. lra.
    - rewrite <- (abs_pos (IZR (2 ^ 53))) by (apply IZR_le; lia). apply bpow_big. lia. }
  destruct (div_val L (f64_div L (f64_of_Z n))) as [F2 V2]; auto.
  { rewrite V1. lra. }
  { rewrite V1. exact Bq. }
  rewrite V1 in V2. fold l in V2.
  exists p, (rnd (l / p)). 
  split; [split; assumption|]. split; [reflexivity|]. split; [exact Pb|]. split; [exact F2|]. split; [exact V2|]. split; [reflexivity|].
  rewrite R2, Ep2. apply Rabs_def1; nra.
Qed.
(** In double precision, for every length and every requested number of rows, the array
    has the requested number of rows or one more - never fewer, never two more. *)
Lemma pC30_requested_pixels_rounding : forall L n, finite_double L -> 0 < double_value L ->
  (1 <= n <= 2 ^ 50)%Z -> powerRZ 2 (-1022) <= double_value L / IZR n ->
  f64_grid_rows L n = n \/ f64_grid_rows L n = (n + 1)%Z.
Proof.
  intros L n FL PL Hn HB. destruct (grid_quotient L n FL PL Hn HB) as (p & q & _ & _ & _ & F & V & _ & D).
  unfold f64_grid_rows. pose proof (ceil_val _ F) as [C1 C2]. rewrite V in C1, C2.
  set (c := f64_ceil _) in *. clearbody c. apply Rabs_def2 in D as [D1 D2].
  assert (n - 1 < c)%Z by (apply lt_IZR; rewrite minus_IZR; lra).
  assert (c - 1 < n + 1)%Z by (apply lt_IZR; rewrite plus_IZR; lra).
  lia.
Qed.
(** A power of two is always met exactly. *)
Lemma pC30_power_of_two_rounding : forall L k, finite_double L -> 0 < double_value L ->
  (0 <= k <= 50)%Z -> powerRZ 2 (-1022) <= double_value L / IZR (2 ^ k) ->
  f64_grid_rows L (2 ^ k) = (2 ^ k)%Z.
Proof.
  intros L k FL PL Hk HB.
  assert (Hn : (1 <= 2 ^ k <= 2 ^ 50)%Z) by (split; [change 1%Z with (2 ^ 0)%Z|]; apply Z.pow_le_mono_r; lia).
  destruct (grid_quotient L (2 ^ k) FL PL Hn HB) as (p & q & _ & Ep & _ & F & V & Eq & _).
  assert (NP : 0 < IZR (2 ^ k)) by (apply IZR_lt; lia).
  assert (P : p = double_value L / IZR (2 ^ k)).
  { rewrite Ep. apply rnd_fmt. destruct (double_fmt L FL) as [GL _].
    change (2 ^ k)%Z with (radix2 ^ k)%Z in *. rewrite IZR_Zpower in * by lia. unfold Rdiv in *. rewrite <- bpow_opp in *.
    apply mult_bpow_exact_FLT; auto; try typeclasses eauto.
    assert (M : (-1021 <= mag radix2 (double_value L * bpow radix2 (- k)))%Z).
    { apply mag_ge_bpow. rewrite abs_pos; [|apply Rmult_le_pos; [lra|apply bpow_ge_0]].
      rewrite bpow_powerRZ. exact HB. }
    rewrite mag_mult_bpow in M by lra. lia. }
  assert (Q : q = IZR (2 ^ k)).
  { rewrite Eq, P. replace (double_value L / (double_value L / IZR (2 ^ k))) with (IZR (2 ^ k)) by (field; lra).
    apply rnd_fmt, fmt_int. lia. }
  unfold f64_grid_rows. pose proof (ceil_val _ F) as [C1 C2]. rewrite V, Q in C1, C2.
  apply lt_IZR in C1. apply le_IZR in C2. lia.
Qed.
(** With a given pixel size the array has, in double precision, the number of rows of the
    exact quotient, or one fewer; the latter only if the missing row would cover less than
    2^-52 of the number of rows, in pixels. *)
Lemma pC30_pixel_size_rounding : forall L p, finite_double L -> finite_double p ->
  0 < double_value p <= double_value L -> double_value L / double_value p <= powerRZ 2 50 ->
  f64_pixel_rows L p = ceil (double_value L / double_value p) \/
  (f64_pixel_rows L p = (ceil (double_value L / double_value p) - 1)%Z /\
   double_value L / double_value p - IZR (f64_pixel_rows L p) <= double_value L / double_value p * powerRZ 2 (-53)).
Proof.
  intros L p FL Fp Hp Hq. set (x := double_value L / double_value p) in *.
  assert (X1 : 1 <= x).
  { unfold x. apply Rmult_le_reg_r with (double_value p); [lra|]. unfold Rdiv. rewrite Rmult_assoc, Rinv_l; lra. }
  assert (Q2 : x <= 1125899906842624) by (replace (powerRZ 2 50) with 1125899906842624 in Hq by (simpl; lra); lra).
  assert (P53 : powerRZ 2 (-53) = u) by (rewrite u_val; simpl; lra).
  assert (B : Rabs (rnd x) < bpow radix2 1024).
  { apply Rle_lt_trans with (IZR (2 ^ 53)).
    - apply rnd_abs_le; [apply fmt_int; lia|]. rewrite abs_pos by lra. change (IZR (2 ^ 53)) with 9007199254740992. lra.
    - rewrite <- (abs_pos (IZR (2 ^ 53))) by (apply IZR_le; lia). apply bpow_big. lia. }
  destruct (div_val L p) as [F V]; auto; [lra|]. fold x in V. unfold f64_pixel_rows.
  pose proof (ceil_val _ F) as [C1 C2]. rewrite V in C1, C2. set (r := f64_ceil _) in *. clearbody r.
  pose proof (ceil_spec x) as [E1 E2]. set (c := ceil x) in *. clearbody c.
  assert (Cb : (0 < c <= 2 ^ 50)%Z).
  { split; [apply lt_IZR; lra|]. assert (c - 1 < 2 ^ 50)%Z by (apply lt_IZR; rewrite minus_IZR; change (IZR (2 ^ 50)) with 1125899906842624; lra). lia. }
  assert (U : rnd x <= IZR c) by (rewrite <- (rnd_fmt (IZR c)) by (apply fmt_int; lia); apply rnd_le; lra).
  assert (D : IZR (c - 1) <= rnd x).
  { rewrite <- (rnd_fmt (IZR (c - 1))) by (apply fmt_int; lia). apply rnd_le. rewrite minus_IZR. lra. }
  assert (r - 1 < c)%Z by (apply lt_IZR; lra).
  assert (c - 1 <= r)%Z by (apply le_IZR; lra).
  destruct (Z.eq_dec r c) as [->|N]; [left; reflexivity|]. assert (r = c - 1)%Z by lia. right. split; [assumption|].
  assert (rnd x = IZR r) by (subst r; lra).
  destruct (rnd_rel x) as (e & He & R). { rewrite abs_pos by lra. pose proof bpow_small. lra. }
  rewrite P53. rewrite <- H2, R. apply Rabs_le_inv in He. nra.
Qed.
(** Such a request exists: 1 length unit in pixels of 1/3 rounded down. *)
Lemma pC30_pixel_size_rounding_refuted : exists L p, finite_double L /\ finite_double p /\
  0 < double_value p <= double_value L /\
  f64_pixel_rows L p = 3%Z /\ ceil (double_value L / double_value p) = 4%Z.
Proof.
  exists (f64_of_Z 1), (f64_div (f64_of_Z 1) (f64_of_Z 3)).
  assert (V : f64_div (f64_of_Z 1) (f64_of_Z 3) = S754_finite false 6004799503160661 (-54)) by (vm_compute; reflexivity).
  rewrite V. destruct (of_Z_val 1) as [F1 V1]; [lia|]. rewrite V1.
  assert (D : double_value (S754_finite false 6004799503160661 (-54)) = 6004799503160661 / 18014398509481984).
  { unfold double_value. simpl. lra. }
  rewrite D. split; [exact F1|]. split; [split; [vm_compute; reflexivity|exact I]|]. split; [lra|].
  split; [vm_compute; reflexivity|]. apply ceil_eq. split; lra.
Qed.
Lemma xC30_rounding : f64_grid_rows (f64_of_Z 512) 49 = 50%Z /\ f64_grid_rows (f64_of_Z 512) 48 = 48%Z /\
  finite_double (f64_of_Z 512) /\ 0 < double_value (f64_of_Z 512) /\
  powerRZ 2 (-1022) <= double_value (f64_of_Z 512) / IZR 49.
Proof.
  split; [vm_compute; reflexivity|]. split; [vm_compute; reflexivity|].
  destruct (of_Z_val 512) as [F V]; [lia|]. split; [exact F|]. rewrite V. split; [lra|].
  change 2 with (IZR radix2) at 1. rewrite <- bpow_powerRZ. pose proof bpow_small. lra.
Qed.

(** ** Frame bins *)
Definition half_ulps : R := / 4503599627370496. (* 2^-52 *)
Lemma unit_step n : (1 <= n <= 2 ^ 40)%Z ->
  let s := f64_div (f64_sub (f64_of_Z 1) (f64_of_Z 0)) (f64_of_Z n) in
  finite_double s /\ exists e, Rabs e <= u /\ double_value s = / IZR n * (1 + e).
Proof.
  intros Hn. cbv zeta. assert (N1 : 1 <= IZR n) by (apply IZR_le; lia).
  assert (N2 : IZR n <= 1099511627776) by (apply IZR_le; lia).
  destruct (of_Z_val 1) as [F1 V1]; [lia|]. destruct (of_Z_val 0) as [F0 V0]; [lia|]. destruct (of_Z_val n) as [Fn Vn]; [lia|].
  assert (R1 : rnd (1 - 0) = 1) by (replace (1 - 0) with 1 by ring; apply rnd_fmt, (fmt_int 1); lia).
  assert (B1 : 1 < bpow radix2 1024) by (rewrite <- (abs_pos 1) by lra; apply (bpow_big 1); lia).
  destruct (sub_val (f64_of_Z 1) (f64_of_Z 0)) as [Fs Vs]; auto.
  { rewrite V1, V0, R1, abs_pos; lra. }
  rewrite V1, V0, R1 in Vs.
  assert (I : 0 < / IZR n <= 1).
  { split; [apply Rinv_0_lt_compat; lra|]. rewrite <- Rinv_1. apply Rinv_le; lra. }
  assert (I2 : / 1099511627776 <= / IZR n) by (apply Rinv_le; lra).
  destruct (div_val (f64_sub (f64_of_Z 1) (f64_of_Z 0)) (f64_of_Z n)) as [Fd Vd]; auto.
  { rewrite Vn. lra. }
  { rewrite Vs, Vn. apply Rle_lt_trans with 1; auto. apply rnd_abs_le; [apply (fmt_int 1); lia|].
    unfold Rdiv. rewrite Rmult_1_l, abs_pos; lra. }
  split; [exact Fd|]. rewrite Vd, Vs, Vn. replace (1 / IZR n) with (/ IZR n) by (field; lra).
  apply rnd_rel. rewrite abs_pos by lra. pose proof bpow_small. lra.
Qed.
Lemma step_times n j : (1 <= n <= 2 ^ 40)%Z -> (0 <= j <= n)%Z ->
  let p := f64_mul (f64_div (f64_sub (f64_of_Z 1) (f64_of_Z 0)) (f64_of_Z n)) (f64_of_Z j) in
  finite_double p /\ Rabs (double_value p - IZR j / IZR n) <= IZR j / IZR n * (5 / 4 * half_ulps).
Proof.
  intros Hn Hj. cbv zeta. destruct (unit_step n Hn) as (Fs & e & He & Vs).
  destruct (of_Z_val j) as [Fj Vj]; [lia|]. set (s := f64_div _ _) in *. clearbody s.
  assert (N1 : 1 <= IZR n) by (apply IZR_le; lia). assert (N2 : IZR n <= 1099511627776) by (apply IZR_le; lia).
  assert (J0 : 0 <= IZR j) by (apply IZR_le; lia). assert (Jn : IZR j <= IZR n) by (apply IZR_le; lia).
  rewrite u_val in He. apply Rabs_le_inv in He.
  assert (I0 : 0 < / IZR n) by (apply Rinv_0_lt_compat; lra).
  set (q := IZR j / IZR n). assert (Q0 : 0 <= q) by (apply Rmult_le_pos; lra).
  assert (Q1 : q <= 1). { unfold q, Rdiv. apply Rmult_le_reg_r with (IZR n); [lra|]. rewrite Rmult_assoc, Rinv_l by lra. lra. }
  assert (Ev : double_value s * double_value (f64_of_Z j) = q * (1 + e)) by (rewrite Vs, Vj; unfold q; field; lra).
  destruct (mul_val s (f64_of_Z j)) as [Fm Vm]; auto.
  { rewrite Ev. apply Rle_lt_trans with 2.
    - apply rnd_abs_le; [apply (fmt_int 2); lia|]. rewrite abs_pos; nra.
    - rewrite <- (abs_pos 2) by lra. apply (bpow_big 2). lia. }
  split; [exact Fm|]. rewrite Vm, Ev. unfold half_ulps. destruct (Z.eq_dec j 0) as [->|Nj].
  - replace q with 0 by (unfold q; field; lra). rewrite Rmult_0_l, rnd_0, Rminus_0_r, Rabs_R0. lra.
  - assert (J1 : 1 <= IZR j) by (apply IZR_le; lia).
    assert (Q2 : / 1099511627776 <= q). { unfold q, Rdiv. assert (/ 1099511627776 <= / IZR n) by (apply Rinv_le; lra). nra. }
    destruct (rnd_rel (q * (1 + e))) as (e2 & E2 & R2).
    { rewrite abs_pos by nra. pose proof bpow_small. nra. }
    rewrite u_val in E2. apply Rabs_le_inv in E2. rewrite R2.
    replace (q * (1 + e) * (1 + e2) - q) with (q * (e + e2 + e * e2)) by ring.
    rewrite Rabs_mult, (abs_pos q) by exact Q0. apply Rmult_le_compat_l; [exact Q0|]. apply Rabs_le. split; nra.
Qed.
(** an edge of the frame bins is off by at most 2^-51 *)
Lemma edge_val n k : (1 <= n <= 2 ^ 40)%Z -> (0 <= k <= n)%Z ->
  finite_double (f64_edge n k) /\ Rabs (double_value (f64_edge n k) - IZR k / IZR n) <= 2 * half_ulps /\
  (k = 0%Z -> double_value (f64_edge n k) = 0) /\ (k = n -> double_value (f64_edge n k) = 1).
Proof.
  intros Hn Hk. unfold f64_edge.
  assert (N1 : 1 <= IZR n) by (apply IZR_le; lia). assert (I0 : 0 < / IZR n) by (apply Rinv_0_lt_compat; lra).
  destruct (of_Z_val 1) as [F1 V1]; [lia|]. destruct (of_Z_val 0) as [F0 V0]; [lia|].
  pose proof (Z.div_mod (n + 1) 2 ltac:(lia)) as DM. pose proof (Z.mod_pos_bound (n + 1) 2 ltac:(lia)) as MB.
  assert (B2 : 2 < bpow radix2 1024) by (rewrite <- (abs_pos 2) by lra; apply (bpow_big 2); lia).
  destruct (Z.ltb_spec k ((n + 1) / 2)) as [L|L]; cbv zeta.
  - destruct (step_times n k Hn Hk) as [Fp Ep]. cbv zeta in Fp, Ep. set (p := f64_mul _ _) in *. clearbody p.
    destruct (double_fmt p Fp) as [Gp Bp].
    destruct (add_val (f64_of_Z 0) p) as [Fa Va]; auto.
    { rewrite V0, Rplus_0_l, (rnd_fmt _ Gp). exact Bp. }
    rewrite V0, Rplus_0_l, (rnd_fmt _ Gp) in Va. split; [exact Fa|]. rewrite Va.
    assert (K0 : 0 <= IZR k) by (apply IZR_le; lia).
    assert (K2 : 2 * IZR k <= IZR n) by (rewrite <- (mult_IZR 2); apply IZR_le; lia).
    assert (Q : 0 <= IZR k / IZR n <= 1).
    { split; [apply Rmult_le_pos; lra|]. apply Rmult_le_reg_r with (IZR n); [lra|]. unfold Rdiv. rewrite Rmult_assoc, Rinv_l by lra. lra. }
    split; [|split].
    + unfold half_ulps in *. nra.
    + intros ->. replace (IZR 0 / IZR n) with 0 in Ep by (field; lra). rewrite Rminus_0_r, Rmult_0_l in Ep.
      destruct (Req_dec (double_value p) 0) as [E|E]; auto. pose proof (Rabs_pos_lt _ E). lra.
    + intros ->. exfalso. lia.
  - destruct (step_times n (n - k) Hn ltac:(lia)) as [Fp Ep]. cbv zeta in Fp, Ep. set (p := f64_mul _ _) in *. clearbody p.
    set (q := IZR (n - k) / IZR n) in *.
    assert (K0 : 0 <= IZR (n - k)) by (apply IZR_le; lia).
    assert (K2 : 2 * IZR (n - k) <= IZR n) by (rewrite <- (mult_IZR 2); apply IZR_le; lia).
    assert (Q : 0 <= q <= / 2).
    { unfold q. split; [apply Rmult_le_pos; lra|]. apply Rmult_le_reg_r with (IZR n); [lra|]. unfold Rdiv. rewrite Rmult_assoc, Rinv_l by lra. lra. }
    assert (Ek : IZR k / IZR n = 1 - q). { unfold q. rewrite minus_IZR. field. lra. }
    rewrite Ek. unfold half_ulps in *. 
    assert (Ep' := Ep). apply Rabs_le_inv in Ep. set (v := double_value p) in *.
    assert (Vb : - / 8 <= v <= 3 / 4) by (split; nra).
    destruct (sub_val (f64_of_Z 1) p) as [Fa Va]; auto.
    { rewrite V1. fold v. apply Rle_lt_trans with 2; auto. apply rnd_abs_le; [apply (fmt_int 2); lia|]. rewrite abs_pos; lra. }
    rewrite V1 in Va. fold v in Va. split; [exact Fa|]. rewrite Va. split; [|split].
    + destruct (rnd_rel (1 - v)) as (e & E & R).
      { rewrite abs_pos by lra. pose proof bpow_small. lra. }
      rewrite R. rewrite u_val in E. apply Rabs_le_inv in E. apply Rabs_le. split; nra.
    + intros ->. exfalso. assert (n + 1 < 2)%Z by lia. lia.
    + intros ->. assert (q = 0) by (unfold q; replace (n - n)%Z with 0%Z by lia; field; lra).
      rewrite H in Ep'. rewrite Rminus_0_r, Rmult_0_l in Ep'.
      assert (v = 0). { destruct (Req_dec v 0) as [E|E]; auto. pose proof (Rabs_pos_lt _ E). lra. }
      rewrite H0, Rminus_0_r. apply rnd_fmt, (fmt_int 1). lia.
Qed.

(** The edges ascend, so that the binary search finds the number of edges below a time. *)
Lemma edges_ascend n j k : (1 <= n <= 2 ^ 40)%Z -> (0 <= j < k)%Z -> (k <= n)%Z ->
  double_value (f64_edge n j) < double_value (f64_edge n k).
Proof.
  intros Hn Hj Hk. destruct (edge_val n j Hn ltac:(lia)) as (_ & A & _). destruct (edge_val n k Hn ltac:(lia)) as (_ & B & _).
  unfold half_ulps in *. apply Rabs_le_inv in A, B.
  assert (N1 : 1 <= IZR n) by (apply IZR_le; lia). assert (N2 : IZR n <= 1099511627776) by (apply IZR_le; lia).
  assert (I2 : / 1099511627776 <= / IZR n) by (apply Rinv_le; lra).
  assert (D : IZR j + 1 <= IZR k) by (rewrite <- (plus_IZR j 1); apply IZR_le; lia).
  unfold Rdiv in *. assert (IZR j * / IZR n + / IZR n <= IZR k * / IZR n) by nra. lra.
Qed.
Lemma antitone_count (P : nat -> bool) N :
  (forall i j, (i < j < N)%nat -> P j = true -> P i = true) ->
  exists c, (c <= N)%nat /\ forall i, (i < N)%nat -> P i = Nat.ltb i c.
Proof.
  induction N as [|N IH]; intros H.
  - exists 0%nat. split; [lia|]. intros; lia.
  - destruct IH as (c & Hc & E). { intros i j Hij. apply H. lia. }
    destruct (P N) eqn:EN.
    + exists (S N). split; [lia|]. intros i Hi. rewrite (proj2 (Nat.ltb_lt i (S N))) by lia.
      destruct (Nat.eq_dec i N) as [->|]; auto. apply (H i N); auto; lia.
    + exists c. split; [lia|]. intros i Hi. destruct (Nat.eq_dec i N) as [->|]; [|apply E; lia].
      rewrite EN. symmetry. apply Nat.ltb_ge. exact Hc.
Qed.
(** In double precision a time is put into a bin whose edges are off by at most 2^-51. *)
Lemma frame_bin n t : (1 <= n <= 2 ^ 40)%Z -> finite_double t -> 0 <= double_value t <= 1 ->
  exists f, f64_frame n t = f /\ (0 <= f < n)%Z /\
    ((double_value t = 0 /\ f = 0%Z) \/ double_value (f64_edge n f) < double_value t) /\
    double_value t <= double_value (f64_edge n (f + 1)).
Proof.
  intros Hn Ft Ht. eexists. split; [reflexivity|]. unfold f64_frame. destruct (Z.leb_spec n 1) as [L|L].
  { assert (n = 1%Z) by lia. subst n. split; [lia|].
    destruct (edge_val 1 0 ltac:(lia) ltac:(lia)) as (_ & _ & E0 & _). destruct (edge_val 1 1 ltac:(lia) ltac:(lia)) as (_ & _ & _ & E1).
    change (0 + 1)%Z with 1%Z. rewrite E0, E1 by reflexivity. split; [|lra].
    destruct Ht as [[?|?] ?]; [right; lra|left; auto]. }
  cbv zeta. rewrite PDetector3.filter_length_map.
  destruct (antitone_count (fun k => SFltb (f64_edge n (Z.of_nat k)) t) (Z.to_nat n + 1)) as (c & Hc & E).
  { intros i j Hij B. destruct (edge_val n (Z.of_nat i) Hn ltac:(lia)) as (Fi & _).
    destruct (edge_val n (Z.of_nat j) Hn ltac:(lia)) as (Fj & _).
    apply ltb_val in B; auto. apply ltb_val; auto.
    apply Rlt_trans with (2 := B). apply edges_ascend; lia. }
  rewrite (filter_ext_in _ (fun i => Nat.ltb i (0 + c))).
  2:{ intros i Hi. apply in_seq in Hi. apply E. lia. }
  rewrite PDetector3.count_lt, Nat.min_l by exact Hc.
  assert (C : (c <= Z.to_nat n)%nat).
  { destruct (Nat.le_gt_cases c (Z.to_nat n)) as [|G]; auto. exfalso.
    assert (B := E (Z.to_nat n) ltac:(lia)). rewrite (proj2 (Nat.ltb_lt (Z.to_nat n) c)) in B by lia.
    rewrite Z2Nat.id in B by lia. destruct (edge_val n n Hn ltac:(lia)) as (Fi & _ & _ & V).
    apply ltb_val in B; auto. rewrite (V eq_refl) in B. lra. }
  rewrite Z.min_l by lia. destruct c as [|c].
  - change (Z.max 0 (Z.of_nat 0 - 1)) with 0%Z. split; [lia|].
    assert (B := E 0%nat ltac:(lia)). change (Nat.ltb 0 0) with false in B. change (Z.of_nat 0) with 0%Z in B.
    destruct (edge_val n 0 Hn ltac:(lia)) as (Fi & _ & V & _).
    assert (~ 0 < double_value t). { intros G. rewrite <- (V eq_refl) in G. apply ltb_val in G; auto. congruence. }
    assert (T0 : double_value t = 0) by lra. split; [left; auto|]. change (0 + 1)%Z with 1%Z.
    rewrite T0, <- (V eq_refl). left. apply edges_ascend; lia.
  - rewrite Z.max_r by lia. replace (Z.of_nat (S c) - 1)%Z with (Z.of_nat c) by lia. split; [lia|].
    destruct (edge_val n (Z.of_nat c) Hn ltac:(lia)) as (Fi & _). destruct (edge_val n (Z.of_nat c + 1) Hn ltac:(lia)) as (Fj & _).
    split.
    + right. assert (B := E c ltac:(lia)). rewrite (proj2 (Nat.ltb_lt c (S c))) in B by lia. apply ltb_val in B; auto.
    + assert (B := E (S c) ltac:(lia)). rewrite (proj2 (Nat.ltb_ge (S c) (S c))) in B by lia.
      replace (Z.of_nat c + 1)%Z with (Z.of_nat (S c)) in * by lia.
      destruct (Rle_or_lt (double_value t) (double_value (f64_edge n (Z.of_nat (S c))))) as [|G]; auto.
      apply ltb_val in G; auto. congruence.
Qed.
(** In double precision the frame of a time t is the frame f with f/n < t <= (f+1)/n up to
    2^-51 on either edge, for every number of frames up to 2^40. *)
Lemma pC31_rounded_bin : forall n t, (1 <= n <= 2 ^ 40)%Z -> finite_double t -> 0 <= double_value t <= 1 ->
  (0 <= f64_frame n t < n)%Z /\
  (f64_frame n t = 0%Z \/ IZR (f64_frame n t) / IZR n - powerRZ 2 (-51) < double_value t) /\
  double_value t <= (IZR (f64_frame n t) + 1) / IZR n + powerRZ 2 (-51).
Proof.
  intros n t Hn Ft Ht. destruct (frame_bin n t Hn Ft Ht) as (f & -> & R & A & B).
  assert (P : powerRZ 2 (-51) = 2 * half_ulps) by (unfold half_ulps; simpl; lra). rewrite P.
  destruct (edge_val n f Hn ltac:(lia)) as (_ & E1 & _). destruct (edge_val n (f + 1) Hn ltac:(lia)) as (_ & E2 & _).
  rewrite plus_IZR in E2. apply Rabs_le_inv in E1, E2. split; [exact R|]. split; [|lra].
  destruct A as [[_ A]|A]; [left; exact A|right; lra].
Qed.
(** Away from the inner edges the rounded frame is the exact one, so that the theorems about
    frames in exact arithmetic hold of the program in double precision. *)
Lemma pC31_rounded_exact : forall n t, (1 <= n <= 2 ^ 40)%Z -> finite_double t -> 0 <= double_value t <= 1 ->
  (forall k, (0 < k < n)%Z -> powerRZ 2 (-51) < Rabs (double_value t - IZR k / IZR n)) ->
  f64_frame n t = frame_of n (Fin (double_value t)).
Proof.
  intros n t Hn Ft Ht Far. destruct (pC31_rounded_bin n t Hn Ft Ht) as (R & A & B).
  set (f := f64_frame n t) in *. clearbody f. apply (pC31_bin_unique n (double_value t)).
  2:{ apply pC31_frame_is_time_bin; auto; lia. }
  assert (N1 : 1 <= IZR n) by (apply IZR_le; lia). assert (I0 : 0 < / IZR n) by (apply Rinv_0_lt_compat; lra).
  assert (PP : 0 < powerRZ 2 (-51)) by (apply powerRZ_lt; lra).
  split; [exact R|]. split.
  - destruct (Z.eq_dec f 0) as [->|N].
    + destruct Ht as [[G|G] _]; [right|left; auto]. unfold Rdiv. rewrite Rmult_0_l. exact G.
    + right. destruct A as [A|A]; [contradiction|]. pose proof (Far f ltac:(lia)) as F.
      unfold Rabs in F. destruct (Rcase_abs _) in F; lra.
  - destruct (Z.eq_dec (f + 1) n) as [E|N].
    + replace (IZR f + 1) with (IZR n) by (rewrite <- E, plus_IZR; reflexivity). unfold Rdiv. rewrite Rinv_r by lra. lra.
    + pose proof (Far (f + 1)%Z ltac:(lia)) as F. rewrite plus_IZR in F.
      unfold Rabs in F. destruct (Rcase_abs _) in F; lra.
Qed.
(** Monotone in the time also in double precision. *)
Lemma pC31_rounded_monotone : forall n t t', (1 <= n <= 2 ^ 40)%Z -> finite_double t -> finite_double t' ->
  0 <= double_value t -> double_value t <= double_value t' -> double_value t' <= 1 ->
  (f64_frame n t <= f64_frame n t')%Z.
Proof.
  intros n t t' Hn Ft Ft' H0 H1 H2.
  destruct (frame_bin n t Hn Ft ltac:(lra)) as (f & -> & R & A & B).
  destruct (frame_bin n t' Hn Ft' ltac:(lra)) as (f' & -> & R' & A' & B').
  destruct (Z.le_gt_cases f f') as [|G]; auto. exfalso.
  destruct A as [[_ A]|A]; [lia|].
  assert (double_value (f64_edge n (f' + 1)) <= double_value (f64_edge n f)).
  { destruct (Z.eq_dec (f' + 1) f) as [->|]; [lra|]. left. apply edges_ascend; lia. }
  lra.
Qed.
(** But a time just above an inner edge can be put into the frame before it: with 3 frames
    the second inner edge is rounded up, and the double between 2/3 and it is in frame 1. *)
Lemma pC31_rounded_refuted : exists n t, finite_double t /\ 0 <= double_value t <= 1 /\
  f64_frame n t = 1%Z /\ frame_of n (Fin (double_value t)) = 2%Z.
Proof.
  exists 3%Z, (f64_edge 3 2).
  assert (V : f64_edge 3 2 = S754_finite false 6004799503160662 (-53)) by (vm_compute; reflexivity).
  rewrite V. assert (D : double_value (S754_finite false 6004799503160662 (-53)) = 6004799503160662 / 9007199254740992).
  { unfold double_value. simpl. lra. }
  rewrite D. split; [split; [vm_compute; reflexivity|exact I]|]. split; [lra|]. split; [vm_compute; reflexivity|].
  apply (pC31_bin_unique 3 (6004799503160662 / 9007199254740992)).
  - apply pC31_frame_is_time_bin; [lia|lra].
  - split; [lia|]. split; [right; lra|lra].
Qed.
Lemma xC31_rounded : f64_frame 10 (f64_div (f64_of_Z 1) (f64_of_Z 4)) = 2%Z /\
  finite_double (f64_div (f64_of_Z 1) (f64_of_Z 4)) /\
  0 <= double_value (f64_div (f64_of_Z 1) (f64_of_Z 4)) <= 1 /\
  (forall k, (0 < k < 10)%Z -> powerRZ 2 (-51) < Rabs (double_value (f64_div (f64_of_Z 1) (f64_of_Z 4)) - IZR k / IZR 10)).
Proof.
  assert (V : f64_div (f64_of_Z 1) (f64_of_Z 4) = S754_finite false 4503599627370496 (-54)) by (vm_compute; reflexivity).
  rewrite V. assert (D : double_value (S754_finite false 4503599627370496 (-54)) = / 4).
  { unfold double_value. simpl. lra. }
  rewrite D. split; [vm_compute; reflexivity|]. split; [split; [vm_compute; reflexivity|exact I]|]. split; [lra|].
  intros k Hk. assert (P : powerRZ 2 (-51) < / 100) by (simpl; lra). unfold Rabs.
  destruct (Z.le_gt_cases k 2) as [L|L].
  - apply IZR_le in L. destruct (Rcase_abs _); lra.
  - assert (3 <= k)%Z as L' by lia. apply IZR_le in L'. destruct (Rcase_abs _); lra.
Qed.
