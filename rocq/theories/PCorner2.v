(** * One rectangle with its corners listed in another order (C105): 'micro' pictures. *)
From Verif Require Import Vec Spec MMotion MLaue MMesh MScattering MStrain MBeam SBeam MPolycrystal SPolycrystal MDetector MClip MRender SRender SWindow.
From Verif Require Import PMotion PLaue PMesh PBeam PStrain PPolycrystal PPolycrystal2 PDetector PDetector2 PDetector3 PDetector4 PRender PRender2 PRender3 PKernel3 PEvents PEnd2 PJoin2 PFrame PFrame2 PFrame3 PFrame4 PWindow PWindow2 PWindow3 PCorner.
From Verif Require Import SCorner SDetector.
Open Scope list_scope. Open Scope R_scope.
Local Notation len := List.length.

(** ** Spots *)
Lemma gauss_at_swap s zc yc i j : gauss_at s yc zc j i = gauss_at s zc yc i j.
Proof. unfold gauss_at. do 3 f_equal. ring. Qed.
Lemma gauss_window_swap s R zc yc : gauss_window_sum s R yc zc = gauss_window_sum s R zc yc.
Proof.
  unfold gauss_window_sum, sum_range. cbv zeta. rewrite sum_swap. apply sum_list_ext. intros a _. apply sum_list_ext. intros b _. apply gauss_at_swap.
Qed.
Lemma gauss_spot_swap s R zc yc T i j : gauss_spot s R yc zc T j i = gauss_spot s R zc yc T i j.
Proof. unfold gauss_spot. cbv zeta. rewrite gauss_window_swap, gauss_at_swap. now rewrite (andb_comm (Z.abs (j - _) <=? R)%Z). Qed.

Lemma rint_reflect x H : Z.even H = true \/ ~ halfway x -> rint (IZR H - x) = (H - rint x)%Z.
Proof.
  intros Hh. pose proof (base_Int_part x) as (A & B). set (n := Int_part x) in *. set (f := x - IZR n).
  assert (F : frac_part x = f) by reflexivity.
  destruct (Req_EM_T f 0) as [F0|F0].
  - assert (E : Int_part (IZR H - x) = (H - n)%Z) by (apply Int_part_eq; rewrite minus_IZR; unfold f in F0; lra).
    assert (F2 : frac_part (IZR H - x) = 0) by (unfold frac_part; rewrite E, minus_IZR; unfold f in F0; lra).
    unfold rint. cbv zeta. rewrite F2, F, E, F0. fold n. destruct (Rlt_dec 0 (1/2)); [reflexivity|lra].
  - assert (E : Int_part (IZR H - x) = (H - n - 1)%Z) by (apply Int_part_eq; rewrite !minus_IZR; unfold f in *; lra).
    assert (F2 : frac_part (IZR H - x) = 1 - f) by (unfold frac_part, f; rewrite E, !minus_IZR; lra).
    unfold rint. cbv zeta. rewrite F2, F, E. fold n.
    destruct (Rlt_dec f (1/2)) as [L|L]; destruct (Rlt_dec (1 - f) (1/2)) as [L2|L2]; try lra.
    + destruct (Rlt_dec (1/2) (1 - f)); [lia|lra].
    + destruct (Rlt_dec (1/2) f); [lia|lra].
    + destruct (Rlt_dec (1/2) (1 - f)); [lra|]. destruct (Rlt_dec (1/2) f); [lra|]. destruct Hh as [Hh|Hh].
      * rewrite !Z.even_sub, Hh. destruct (Z.even n); cbn [Bool.eqb Z.even]; lia.
      * exfalso. apply Hh. exists n. unfold f in *. lra.
Qed.
Lemma sum_range_last lo n g : sum_range lo (S n) g = sum_range lo n g + g (lo + Z.of_nat n)%Z.
Proof. unfold sum_range. rewrite seq_S, map_app, sum_list_app. cbn [map Nat.add]. rewrite sum_list_cons, sum_list_nil. ring. Qed.
Lemma sum_range_first lo n g : sum_range lo (S n) g = g lo + sum_range (lo + 1) n g.
Proof.
  unfold sum_range. cbn [seq]. rewrite <- seq_shift. cbn [map]. rewrite sum_list_cons, map_map. f_equal; [f_equal; lia|]. apply sum_list_ext. intros k _. f_equal. lia.
Qed.
Lemma sum_range_reflect c n : forall lo g, sum_range (c - lo - Z.of_nat n + 1) n g = sum_range lo n (fun i => g (c - i)%Z).
Proof.
  induction n as [|n IH]; intros lo g; [reflexivity|]. rewrite sum_range_last, sum_range_first.
  replace (c - lo - Z.of_nat (S n) + 1)%Z with (c - (lo + 1) - Z.of_nat n + 1)%Z by lia. rewrite IH. replace (c - (lo + 1) - Z.of_nat n + 1 + Z.of_nat n)%Z with (c - lo)%Z by lia. ring.
Qed.
Lemma gauss_at_reflect s zc yc i j H : gauss_at s (IZR H - zc) yc (H - i) j = gauss_at s zc yc i j.
Proof. unfold gauss_at. rewrite minus_IZR. do 3 f_equal. ring. Qed.
Lemma window_reflect s R zc yc H : (0 <= R)%Z -> rint (IZR H - zc) = (H - rint zc)%Z -> gauss_window_sum s R (IZR H - zc) yc = gauss_window_sum s R zc yc.
Proof.
  intros HR E. unfold gauss_window_sum. cbv zeta. rewrite E. set (n := Z.to_nat (2 * R + 1)).
  replace (H - rint zc - R)%Z with (H - (rint zc - R) - Z.of_nat n + 1)%Z by (unfold n; lia). rewrite sum_range_reflect.
  apply sum_range_ext. intros i _. apply sum_range_ext. intros j _. apply gauss_at_reflect.
Qed.
Lemma spot_reflect s R zc yc T i j H : (0 <= R)%Z -> Z.even H = true \/ ~ halfway zc -> gauss_spot s R (IZR H - zc) yc T (H - i) j = gauss_spot s R zc yc T i j.
Proof.
  intros HR Hh. pose proof (rint_reflect zc H Hh) as E. unfold gauss_spot. cbv zeta. rewrite (window_reflect s R zc yc H HR E), gauss_at_reflect, E.
  replace (Z.abs (H - i - (H - rint zc))) with (Z.abs (i - rint zc)) by lia. reflexivity.
Qed.

(** ** Pictures *)
Lemma relaid_reads to out out2 r r2 : relaid to out out2 r r2 ->
  read out2 r2 "zd" = fst (to (read out r "zd") (read out r "yd")) /\ read out2 r2 "yd" = snd (to (read out r "zd") (read out r "yd")) /\
  strength out2 r2 = strength out r /\ read out2 r2 "frame" = read out r "frame".
Proof.
  intros (F & zd & yd & a & H1 & H2 & _ & H4 & H5 & _).
  assert (R : forall pd q c x, has pd q c x -> read pd q c = x) by (intros pd q c x H; unfold read; unfold has in H; now rewrite H).
  assert (S : forall c, ~ In c ["zd"; "yd"; "incident_angle"]%string -> read out2 r2 c = read out r c) by (intros c N; unfold read; now rewrite F).
  rewrite (R _ _ _ _ H1), (R _ _ _ _ H2), (R _ _ _ _ H4), (R _ _ _ _ H5). unfold strength. rewrite !S by (cbn; intuition discriminate). auto.
Qed.
Lemma relaid_sum to out out2 f (g h : list num -> R) : Forall2 (relaid to out out2) (pd_peaks out) (pd_peaks out2) ->
  (forall r r2, In r (pd_peaks out) -> relaid to out out2 r r2 -> h r2 = g r) ->
  sum_list (map h (rows_in_frame out2 f)) = sum_list (map g (rows_in_frame out f)).
Proof.
  intros F. unfold rows_in_frame. generalize (pd_peaks out2), (pd_peaks out), F. clear F. intros l2 l F. induction F as [|r r2 l l2 H F IH]; intros E; [reflexivity|]. cbn [filter].
  destruct (relaid_reads to out out2 r r2 H) as (_ & _ & _ & ->). destruct (Reqb _ _); cbn [map]; rewrite ?sum_list_cons, IH by (intros; apply E; auto; now right); [|reflexivity].
  f_equal. apply E; [now left|exact H].
Qed.
Lemma diffract_volumes z x p b m lo hi det pd : reachable_pc x p -> fst (diffract z x p b m lo hi det) = Ok pd -> fresh pd /\ volumes_ok pd.
Proof.
  intros HR D. split; [eapply pC32_diffract_tables_fresh; exact D|]. destruct (diffract z x p b m lo hi det) as [r p'] eqn:E. cbn [fst] in D. subst r. exact (volumes_ok_diffract _ _ _ _ _ _ _ _ _ _ HR E).
Qed.
Lemma transposed_pixels d d2 : transposed d d2 -> d_nz d2 = d_ny d /\ d_ny d2 = d_nz d.
Proof.
  intros T. destruct (transposed_maxes d d2 T) as (M1 & M2). destruct T as (B & B2 & _ & _ & _ & _ & _ & P1 & P2 & _).
  destruct (panel_sizes d B) as (_ & _ & A1 & A2). destruct (panel_sizes d2 B2) as (_ & _ & A3 & A4). rewrite M1, P1, A2 in A3. rewrite M2, P2, A1 in A4. split; congruence.
Qed.
(** C105. The 'micro' picture on the transposed detector is the transposed picture, exactly. *)
Lemma pC105_transposed_micro : forall d d2 e z x p b m lo hi det pd frames ml mi im out, transposed d d2 -> reachable_pc x p ->
  fst (diffract z x p b m lo hi det) = Ok pd -> render e d pd frames "micro" ml mi = Ok (im, out) ->
  exists im2 out2, render e d2 pd frames "micro" ml mi = Ok (im2, out2) /\ transposed_image im im2.
Proof.
  intros d d2 e z x p b m lo hi det pd frames ml mi im out T HR D H1. destruct (diffract_volumes _ _ _ _ _ _ _ _ _ HR D) as (Hf & Hv).
  destruct (pC39_micro_never_fails e d2 pd frames ml mi Hf) as (im2 & out2 & H2). exists im2, out2. split; [exact H2|].
  pose proof (pC36_shape _ _ _ _ _ _ _ _ _ H1) as (S1 & S2 & S3). pose proof (pC36_shape _ _ _ _ _ _ _ _ _ H2) as (S4 & S5 & S6).
  destruct (transposed_pixels d d2 T) as (Q1 & Q2). split; [congruence|]. split; [congruence|]. split; [congruence|].
  intros f i j Hin. assert (Hin2 : in_image im2 f j i) by (unfold in_image in *; rewrite S4, S5, S6, Q1, Q2; rewrite S1, S2, S3 in Hin; tauto).
  rewrite (pC39_pixel_is_sum_of_spots _ _ _ _ _ _ _ _ _ _ _ Hf Hv H1 Hin), (pC39_pixel_is_sum_of_spots _ _ _ _ _ _ _ _ _ _ _ Hf Hv H2 Hin2). f_equal.
  assert (O1 := proj1 (micro_inv _ _ _ _ _ _ _ _ H1)). assert (O2 := proj1 (micro_inv _ _ _ _ _ _ _ _ H2)).
  destruct (pC105_transposed_table d d2 z x p b m lo hi det pd _ _ out T D O1) as (out2' & O2' & F). rewrite O2 in O2'. assert (out2' = out2) by congruence. subst out2'.
  apply (relaid_sum _ _ _ _ _ _ F). intros r r2 _ HL. destruct (relaid_reads _ _ _ _ _ HL) as (E1 & E2 & E3 & _). unfold exchanged in E1, E2. cbn [fst snd] in E1, E2.
  destruct T as (_ & _ & _ & _ & _ & _ & _ & P1 & P2 & (SG & _)). unfold micro_spot, micro_radius, micro_sigma. rewrite E1, E2, E3, P1, P2, SG. apply gauss_spot_swap.
Qed.
(** C105. Listing the corners from the other end of the z edge, on a panel of H whole pixels along z: pixel row i becomes pixel row
    H - i (H even, or no spot exactly halfway between pixel rows). *)
Lemma pC105_turned_micro : forall d d2 e z x p b m lo hi det pd frames ml mi im out im2 out2 H, turned_over d d2 -> reachable_pc x p ->
  fst (diffract z x p b m lo hi det) = Ok pd -> render e d pd frames "micro" ml mi = Ok (im, out) -> render e d2 pd frames "micro" ml mi = Ok (im2, out2) ->
  d_zmax d = IZR H * d_pz d -> (Z.even H = true \/ forall r, In r (pd_peaks out) -> ~ halfway (read out r "zd" / d_pz d)) ->
  (f_n im2 = f_n im /\ f_h im2 = f_h im /\ f_w im2 = f_w im) /\
  forall f i i2 j, in_image im f i j -> in_image im2 f i2 j -> (Z.of_nat i + Z.of_nat i2 = H)%Z -> f_at im2 f i2 j = f_at im f i j.
Proof.
  intros d d2 e z x p b m lo hi det pd frames ml mi im out im2 out2 H T HR D H1 H2 HW HT. destruct (diffract_volumes _ _ _ _ _ _ _ _ _ HR D) as (Hf & Hv).
  pose proof (pC36_shape _ _ _ _ _ _ _ _ _ H1) as (S1 & S2 & S3). pose proof (pC36_shape _ _ _ _ _ _ _ _ _ H2) as (S4 & S5 & S6).
  pose proof (over_maxes d d2 T) as (M1 & M2). assert (O1 := proj1 (micro_inv _ _ _ _ _ _ _ _ H1)). assert (O2 := proj1 (micro_inv _ _ _ _ _ _ _ _ H2)).
  destruct (pC105_turned_table d d2 z x p b m lo hi det pd _ _ out T D O1) as (out2' & O2' & F). rewrite O2 in O2'. assert (out2' = out2) by congruence. subst out2'.
  destruct T as (B & B2 & _ & N2 & _ & _ & _ & _ & P1 & P2 & (SG & _)). destruct (panel_sizes d B) as (_ & _ & A1 & A2). destruct (panel_sizes d2 B2) as (_ & _ & A3 & A4).
  rewrite M1, P1, A1 in A3. rewrite M2, P2, A2 in A4. split; [repeat split; congruence|].
  intros f i i2 j I1 I2 Ei. rewrite (pC39_pixel_is_sum_of_spots _ _ _ _ _ _ _ _ _ _ _ Hf Hv H1 I1), (pC39_pixel_is_sum_of_spots _ _ _ _ _ _ _ _ _ _ _ Hf Hv H2 I2). f_equal.
  apply (relaid_sum _ _ _ _ _ _ F). intros r r2 Hr HL. destruct (relaid_reads _ _ _ _ _ HL) as (E1 & E2 & E3 & _). unfold from_far_end in E1, E2. cbn [fst snd] in E1, E2.
  pose proof (proj1 (size_pos d B) N2) as HP. unfold micro_spot, micro_radius, micro_sigma. rewrite E1, E2, E3, P1, P2, SG, HW.
  replace ((IZR H * d_pz d - read out r "zd") / d_pz d) with (IZR H - read out r "zd" / d_pz d) by (field; lra). replace (Z.of_nat i2) with (H - Z.of_nat i)%Z by lia.
  apply spot_reflect; [lia|]. destruct HT as [HT|HT]; [now left|right; auto].
Qed.
(** C105. So the picture is not the flipped one (row i for row H - 1 - i): it would have to be constant along z. *)
Lemma pC105_not_the_flip : forall d d2 e z x p b m lo hi det pd frames ml mi im out im2 out2 H, turned_over d d2 -> reachable_pc x p ->
  fst (diffract z x p b m lo hi det) = Ok pd -> render e d pd frames "micro" ml mi = Ok (im, out) -> render e d2 pd frames "micro" ml mi = Ok (im2, out2) ->
  d_zmax d = IZR H * d_pz d -> (Z.even H = true \/ forall r, In r (pd_peaks out) -> ~ halfway (read out r "zd" / d_pz d)) ->
  (forall f i i2 j, in_image im f i j -> in_image im2 f i2 j -> (Z.of_nat i + Z.of_nat i2 = H - 1)%Z -> f_at im2 f i2 j = f_at im f i j) ->
  forall f i j, in_image im f i j -> in_image im f (S i) j -> f_at im f (S i) j = f_at im f i j.
Proof.
  intros d d2 e z x p b m lo hi det pd frames ml mi im out im2 out2 H T HR D H1 H2 HW HT HFL f i j I1 I2.
  destruct (pC105_turned_micro d d2 e z x p b m lo hi det pd frames ml mi im out im2 out2 H T HR D H1 H2 HW HT) as ((Q1 & Q2 & Q3) & C).
  pose proof (pC36_shape _ _ _ _ _ _ _ _ _ H1) as (S1 & S2 & S3).
  assert (HN : Z.of_nat (f_h im) = H).
  { destruct T as (B & _ & _ & N2 & _). destruct (panel_sizes d B) as (EZ & _ & A1 & _). pose proof (proj1 (size_pos d B) N2) as HP. unfold arange_len in A1.
    destruct (Req_EM_T (d_pz d) 0); [discriminate|]. destruct (Rltb (d_pz d) 0 && Rltb 0 (d_zmax d))%bool; [discriminate|]. apply ok_inj in A1. rewrite S2, <- A1, HW.
    replace (IZR H * d_pz d / d_pz d) with (IZR H) by (field; lra). assert (E : ceil (IZR H) = H) by (apply ceil_eq; lra). rewrite E.
    rewrite Z2Nat.id; [reflexivity|]. apply le_IZR. pose proof (sub_nonzero _ _ N2) as Q. unfold dist in EZ. rewrite <- EZ, HW in Q. nra. }
  unfold in_image in *. assert (K : exists i2, (Z.of_nat (S i) + Z.of_nat i2 = H)%Z /\ (i2 < f_h im)%nat) by (exists (Z.to_nat (H - Z.of_nat (S i))); lia).
  destruct K as (i2 & K1 & K2). rewrite <- (C f (S i) i2 j), <- (HFL f i i2 j); auto; lia || tauto || (rewrite ?Q1, ?Q2, ?Q3; repeat split; tauto).
Qed.
