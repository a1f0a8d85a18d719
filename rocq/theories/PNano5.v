(** * Nano rendering: several discs of different size in one batch (C72). *)
From Verif Require Import Vec Spec MMotion MLaue MMesh MScattering MStrain MBeam MPolycrystal SPolycrystal MDetector SDetector.
From Verif Require Import MRender SRender SNano PLaue PScattering PBeam PDetector PDetector2 PDetector3 PDetector4 PRender PRender2 PRender2b PRenderEx PRender3 PKernel PKernel2 PKernel3 PMacro PNano PNanoEx PNano2 PNano3 PNano4.
From Coq Require Import Permutation FunctionalExtensionality.
Open Scope R_scope.
Local Notation len := List.length.

Lemma kernel_shape z j1 d psf n x : (1 <= n)%Z -> 1/2 <= x < 10^8 -> d_sigma d <= x ->
  exists c s, (1 <= c)%nat /\ 0 < s /\ snd (airy_kernel z j1 d psf (IZR n) (Fin x)) = (2 * c + 1)%nat /\
    k_n (fst (airy_kernel z j1 d psf (IZR n) (Fin x))) = (2 * c + 1)%nat /\
    forall a b, (a < 2 * c + 1)%nat -> (b < 2 * c + 1)%nat ->
      k_at (fst (airy_kernel z j1 d psf (IZR n) (Fin x))) a b = Fin (s * airy_pattern j1 (sqrt ((INR a - INR c)^2 + (INR b - INR c)^2) / x)).
Proof.
  intros Hn [Hx Hx'] Hs. unfold airy_kernel. cbn [nlt fst snd]. replace (Rltb x (1/2)) with false by (symmetry; apply Rltb_false; lra).
  destruct (grid_entries z j1 d n x ltac:(lia) ltac:(lra) Hs) as (EN & EE & ES). set (k0 := airy_grid z j1 d (IZR n) (Fin x)) in *. clearbody k0.
  set (g0 := fun a b : nat => _) in EE. set (S := disc_sum j1 x (d_sigma d) n) in *.
  assert (HS : 1 <= S) by (unfold S; apply (disc_sum_grows j1 x (d_sigma d) n (n + 1) (n + 1)); try lra; lia).
  assert (E1 : entries (knorm z k0) (fun a b => g0 a b / S)).
  { intros a b Ha Hb. cbn [knorm k_at k_n] in *. rewrite ES, (EE a b Ha Hb). apply ndiv_fin. lra. }
  set (k := knorm z k0) in *. assert (Nk : k_n k = Z.to_nat (2 * n + 1)) by exact EN. clearbody k.
  pose proof (crop_radius_range (d_threshold d) k ltac:(lia)) as R. set (c := crop_radius (d_threshold d) k) in *. clearbody c.
  assert (H2 : (k_n k / 2 = Z.to_nat n)%nat) by (rewrite Nk; symmetry; apply Nat.div_unique with 1%nat; lia).
  assert (CE : crop k c = Ker (2 * c + 1) (fun a b => k_at k (Z.to_nat n - c + a) (Z.to_nat n - c + b))).
  { unfold crop. rewrite window_eq by lia. cbn [fst snd]. rewrite H2, Nk. f_equal. lia. }
  rewrite CE. exists c, (/ S). split; [lia|]. split; [apply Rinv_0_lt_compat; lra|]. split; [reflexivity|]. split; [reflexivity|]. cbn [k_at].
  intros a b Ha Hb. rewrite E1 by lia. f_equal. unfold g0. rewrite prof_pattern by (auto using int_radius; lra).
  rewrite Rmult_comm. unfold Rdiv at 1. f_equal. f_equal. f_equal. f_equal. rewrite !plus_IZR, !opp_IZR, !INR_IZR_INZ.
  replace (Z.of_nat (Z.to_nat n - c + a)) with (n - Z.of_nat c + Z.of_nat a)%Z by lia. replace (Z.of_nat (Z.to_nat n - c + b)) with (n - Z.of_nat c + Z.of_nat b)%Z by lia.
  rewrite !plus_IZR, !minus_IZR. f_equal; f_equal; ring.
Qed.
Lemma fold_nmax_fin : forall l x, exists m, fold_left nmax (map Fin l) (Fin x) = Fin m /\ (m = x \/ In m l) /\ x <= m /\ forall y, In y l -> y <= m.
Proof.
  induction l as [|y l IH]; intros x; cbn [map fold_left].
  - exists x. split; auto. split; auto. split; [lra|]. intros y [].
  - cbn [nmax nlt]. destruct (Rltb x y) eqn:E.
    + apply Rltb_true in E. destruct (IH y) as (m & -> & A & B & C). exists m. split; auto. split; [destruct A as [-> |A]; right; [now left|now right]|]. split; [lra|]. intros w [-> |W]; auto.
    + apply Rltb_false in E. destruct (IH x) as (m & -> & A & B & C). exists m. split; auto. split; [destruct A as [-> |A]; [now left|right; now right]|]. split; [lra|]. intros w [-> |W]; auto. lra.
Qed.
Lemma nmax_list_fin l X : (forall y, In y l -> y <= X) -> In X l -> nmax_list (map Fin l) = Fin X.
Proof.
  intros H HX. destruct l as [|x l]; [destruct HX|]. cbn [map nmax_list]. destruct (fold_nmax_fin l x) as (m & -> & A & B & C). f_equal.
  assert (In m (x :: l)) by (destruct A as [-> |A]; [now left|now right]). specialize (H m H0). destruct HX as [<- |HX]; [lra|]. specialize (C X HX). lra.
Qed.
Lemma pad_odd m c k : k_n k = (2 * c + 1)%nat -> (c <= m)%nat -> k_n (pad_to (2 * m + 1) k) = (2 * m + 1)%nat /\
  forall a b, (a < 2 * m + 1)%nat -> (b < 2 * m + 1)%nat ->
    k_at (pad_to (2 * m + 1) k) a b = if ((m - c <=? a) && (a <=? m + c) && (m - c <=? b) && (b <=? m + c))%nat then k_at k (a - (m - c)) (b - (m - c)) else Fin 0.
Proof.
  intros Hk Hc. unfold pad_to. destruct (Nat.ltb_spec (k_n k) (2 * m + 1)) as [L|L].
  - assert (E : ((2 * m + 1 - k_n k) / 2 = m - c)%nat) by (symmetry; apply Nat.div_unique with 0%nat; lia). rewrite E. cbn [k_n k_at]. split; [lia|]. intros a b Ha Hb.
    replace (Nat.ltb a (m - c + k_n k)) with (Nat.leb a (m + c)) by (rewrite Hk; destruct (Nat.leb_spec a (m + c)), (Nat.ltb_spec a (m - c + (2 * c + 1))); auto; lia).
    replace (Nat.ltb b (m - c + k_n k)) with (Nat.leb b (m + c)) by (rewrite Hk; destruct (Nat.leb_spec b (m + c)), (Nat.ltb_spec b (m - c + (2 * c + 1))); auto; lia). reflexivity.
  - assert (c = m) as -> by lia. split; [lia|]. intros a b Ha Hb. rewrite Nat.sub_diag, !Nat.sub_0_r.
    replace (Nat.leb a (m + m)) with true by (symmetry; apply Nat.leb_le; lia). replace (Nat.leb b (m + m)) with true by (symmetry; apply Nat.leb_le; lia). reflexivity.
Qed.
Lemma max_odd_form l : l <> [] -> (forall x, In x l -> exists c, x = (2 * c + 1)%nat) -> exists m, fold_right Nat.max 0%nat l = (2 * m + 1)%nat.
Proof.
  intros N H. pose proof (fold_max_odd l) as O. assert (Od : Nat.odd (fold_right Nat.max 0%nat l) = true).
  { apply O; auto. intros x Hx. destruct (H x Hx) as (c & ->). apply Nat.odd_spec. now exists c. }
  apply Nat.odd_spec in Od as [m Hm]. now exists m.
Qed.
(** Peaks of different size rendered together: all kernels get the same odd size, the kernel of each peak is
    its own Airy pattern around the middle, cut off to zero outside of a square. *)
Lemma pC72_airy_batch : forall z j1 d psf pd rows X, 0 < d_pz d -> pd_columns pd = column_names ++ new_columns ->
  (forall r, In r rows -> List.length r = 30%nat /\ proper_disc pd r /\ 1/2 <= disc_radius d pd r < 10^8 /\ d_sigma d <= disc_radius d pd r <= X) ->
  (exists r, In r rows /\ disc_radius d pd r = X) -> (X <= 2 \/ (exists n, 4 * X = IZR n) \/ 32 <= X) ->
  exists ks m, airy_kernels z j1 d psf rows = Ok ks /\
    Forall2 (fun r k => k_n k = (2 * m + 1)%nat /\ exists c w, 0 < c /\ (1 <= w <= m)%nat /\
      forall a b, (a < 2 * m + 1)%nat -> (b < 2 * m + 1)%nat ->
        ((m - w <= a <= m + w)%nat /\ (m - w <= b <= m + w)%nat ->
          k_at k a b = Fin (c * airy_pattern j1 (sqrt ((INR a - INR m)^2 + (INR b - INR m)^2) / disc_radius d pd r))) /\
        (~ ((m - w <= a <= m + w)%nat /\ (m - w <= b <= m + w)%nat) -> k_at k a b = Fin 0)) rows ks.
Proof.
  intros z j1 d psf pd rows X Hp Hc Hr (rX & HrX & EX) HX.
  assert (FZ : map (first_zero z d) rows = map Fin (map (disc_radius d pd) rows)).
  { rewrite map_map. apply map_ext_in. intros r Hin. destruct (Hr r Hin) as (L & D & _). now apply first_zero_val. }
  assert (NM : nmax_list (map (first_zero z d) rows) = Fin X).
  { rewrite FZ. apply nmax_list_fin; [|rewrite <- EX; now apply in_map]. intros y Hy. apply in_map_iff in Hy as (r & <- & Hin). destruct (Hr r Hin) as (_ & _ & _ & _ & L). exact L. }
  destruct (whole_radius d X HX) as (n & Hn & HR). unfold airy_kernels. rewrite NM, HR. cbn [bind]. rewrite FZ, !map_map.
  set (K := fun r => airy_kernel z j1 d psf (IZR n) (Fin (disc_radius d pd r))).
  assert (KS : forall r, In r rows -> exists c s, (1 <= c)%nat /\ 0 < s /\ snd (K r) = (2 * c + 1)%nat /\ k_n (fst (K r)) = (2 * c + 1)%nat /\
    forall a b, (a < 2 * c + 1)%nat -> (b < 2 * c + 1)%nat -> k_at (fst (K r)) a b = Fin (s * airy_pattern j1 (sqrt ((INR a - INR c)^2 + (INR b - INR c)^2) / disc_radius d pd r))).
  { intros r Hin. destruct (Hr r Hin) as (_ & _ & Hx & Hs & _). now apply kernel_shape. }
  change (map (fun x => snd (airy_kernel z j1 d psf (IZR n) (Fin (disc_radius d pd x)))) rows) with (map (fun x => snd (K x)) rows).
  change (map (fun x => pad_to ?m (fst (airy_kernel z j1 d psf (IZR n) (Fin (disc_radius d pd x))))) rows) with (map (fun x => pad_to m (fst (K x))) rows).
  clearbody K. destruct (max_odd_form (map (fun x => snd (K x)) rows)) as (m & Em).
  { destruct rows; [destruct HrX|discriminate]. }
  { intros x Hx. apply in_map_iff in Hx as (r & <- & Hin). destruct (KS r Hin) as (c & _ & _ & _ & E & _). now exists c. }
  assert (LE : forall r, In r rows -> (snd (K r) <= 2 * m + 1)%nat).
  { intros r Hin. rewrite <- Em. apply fold_max_ge. apply in_map_iff. now exists r. }
  rewrite Em. clear Em. exists (map (fun x => pad_to (2 * m + 1) (fst (K x))) rows), m.
  assert (SZ : forall r, In r rows -> k_n (pad_to (2 * m + 1) (fst (K r))) = (2 * m + 1)%nat).
  { intros r Hin. destruct (KS r Hin) as (c & s & _ & _ & E & EN & _). specialize (LE r Hin). apply (pad_odd m c); auto. lia. }
  split.
  - destruct rows as [|r rows]; [destruct HrX|]. cbn [map]. match goal with |- (if ?b then _ else _) = _ => replace b with true; [reflexivity|] end.
    symmetry. apply forallb_forall. intros k Hk. apply in_map_iff in Hk as (r' & <- & Hr'). apply Nat.eqb_eq. rewrite !SZ; auto; [now left|now right].
  - assert (G : forall l, (forall r, In r l -> In r rows) -> Forall2 (fun r k => k_n k = (2 * m + 1)%nat /\ exists c w, 0 < c /\ (1 <= w <= m)%nat /\
      forall a b, (a < 2 * m + 1)%nat -> (b < 2 * m + 1)%nat ->
        ((m - w <= a <= m + w)%nat /\ (m - w <= b <= m + w)%nat ->
          k_at k a b = Fin (c * airy_pattern j1 (sqrt ((INR a - INR m)^2 + (INR b - INR m)^2) / disc_radius d pd r))) /\
        (~ ((m - w <= a <= m + w)%nat /\ (m - w <= b <= m + w)%nat) -> k_at k a b = Fin 0)) l (map (fun x => pad_to (2 * m + 1) (fst (K x))) l)).
    { induction l as [|r l IH]; intros Hl; cbn [map]; constructor; [|apply IH; intros; apply Hl; now right].
      assert (Hin : In r rows) by (apply Hl; now left). split; [now apply SZ|]. destruct (KS r Hin) as (c & s & C1 & S0 & E & EN & EV). specialize (LE r Hin). rewrite E in LE.
      exists s, c. split; auto. split; [lia|]. intros a b Ha Hb. destruct (pad_odd m c (fst (K r)) EN ltac:(lia)) as [_ P]. rewrite (P a b Ha Hb).
      split.
      + intros [Wa Wb]. replace ((m - c <=? a)%nat && (a <=? m + c)%nat && (m - c <=? b)%nat && (b <=? m + c)%nat)%bool with true by (symmetry; repeat (apply andb_true_intro; split); apply Nat.leb_le; lia).
        rewrite EV by lia. do 5 f_equal. rewrite !minus_INR by lia. f_equal; f_equal; lra.
      + intros NW. destruct ((m - c <=? a)%nat && (a <=? m + c)%nat && (m - c <=? b)%nat && (b <=? m + c)%nat)%bool eqn:Q; [|reflexivity]. exfalso. apply NW.
        apply andb_true_iff in Q as [Q Q4]. apply andb_true_iff in Q as [Q Q3]. apply andb_true_iff in Q as [Q1 Q2]. apply Nat.leb_le in Q1, Q2, Q3, Q4. lia. }
    apply G. auto.
Qed.
Lemma xC72_batch : exists d pd ra rb, 0 < d_pz d /\ pd_columns pd = column_names ++ new_columns /\
  (forall r, In r [ra; rb] -> List.length r = 30%nat /\ proper_disc pd r /\ 1/2 <= disc_radius d pd r < 10^8 /\ d_sigma d <= disc_radius d pd r <= 3) /\
  disc_radius d pd ra = 2 /\ disc_radius d pd rb = 3 /\ exists n, 4 * 3 = IZR n.
Proof.
  destruct ex_world as (me & b & _). set (out := projected_table 2 [disc_spot (1/4) 3; disc_spot (3/4) 2] me b).
  assert (R : forall t x, proper_disc out (disc_row t x) /\ disc_radius nano_det out (disc_row t x) = x).
  { intros t x. assert (E1 : read out (disc_row t x) "incident_angle" = 0) by reflexivity. assert (E2 : read out (disc_row t x) "scherrer_fwhm" = x / (11861/1000)) by reflexivity.
    split; [split; [eexists; reflexivity|split; [eexists; reflexivity|rewrite E1, Rmult_0_l, cos_0; lra]]|].
    unfold disc_radius. rewrite E1, E2, Rmult_0_l, cos_0. change (d_c0 nano_det) with (V3 10 0 0). change (d_pz nano_det) with 1. rewrite (norm_sqrt_eq (V3 10 0 0) 10) by (vunf; lra). field. }
  exists nano_det, out, (disc_row (3/4) 2), (disc_row (1/4) 3). split; [cbn; lra|]. split; [reflexivity|]. split.
  - assert (Sg : d_sigma nano_det = 1) by reflexivity.
    intros r [<- | [<- | [] ] ]; (split; [reflexivity|]); (split; [apply R|]); match goal with |- context [disc_row ?t ?x] => rewrite (proj2 (R t x)) end; rewrite Sg; split; lra.
  - split; [apply R|]. split; [apply R|]. exists 12%Z. lra.
Qed.
