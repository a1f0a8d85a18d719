(** * C103, continued: render on a table with a multiplied column. *)
From Verif Require Import Vec MMotion MLaue MMesh MScattering MStrain MBeam MPolycrystal SPolycrystal MDetector SDetector MRender SRender SPassenger SLinear.
From Verif Require Import PMesh PPolycrystal PDetector PDetector2 PRender PRender2 PJoin2 PPass PPass2 PLinear.
From Coq Require Import FunctionalExtensionality String.
Open Scope list_scope. Open Scope R_scope.
Local Notation len := List.length.

Lemma factor_enabled d s : brightness_factor d s -> exists p, factor_column s = Some p /\ enabled d p /\ Nat.eqb p 21 = false.
Proof.
  intros [ [-> H]|[ [-> H]|[-> H] ] ]; [exists 5%nat|exists 20%nat|exists 19%nat]; split; try reflexivity; split; try reflexivity; unfold enabled; tauto.
Qed.
Lemma brighter_scale c im : brighter c im (scale3 c im).
Proof. split; [repeat split|]. reflexivity. Qed.
Lemma scene_macro e d pd pd' rows n : same_scene pd pd' -> macro_method e d pd rows n = macro_method e d pd' rows n.
Proof. intros (A & B & C). unfold macro_method. rewrite (macro_beam _ _ _ _ _ _ _ _ C), A, B. reflexivity. Qed.
Lemma project_total z d pd n : fresh pd -> exists out, project z d pd n = Ok out.
Proof. intros [C F]. apply project_ok. eapply Forall_impl; [|exact F]; cbn; intros; lia. Qed.

(** The picture of a table in which one switched-on factor is c times as large. *)
Lemma pC103_linear : forall e d s c pd pd' frames method ml mi,
  fresh pd -> fresh pd' -> same_scene pd pd' -> 0 < c -> brightness_factor d s -> rescaled [s] c pd pd' ->
  method = "nano"%string \/ method = "macro"%string ->
  match render e d pd frames method ml mi, render e d pd' frames method ml mi with
  | Ok (im, out), Ok (im', out') => brighter c im im' /\ rescaled [s; "intensity_factors"%string] c out out'
  | Err x, Err x' => x = x'
  | _, _ => False
  end.
Proof.
  intros e d s c pd pd' frames method ml mi F F' S C B R M.
  destruct (factor_enabled d s B) as (p & Ep & En & N21).
  assert (RR : pd_peaks pd' = map (sr c 1 p) (pd_peaks pd)) by (apply (rescaled_rows s p c 1 pd pd' Ep F F'); rewrite N21; auto).
  assert (P1 : 0 < 1) by lra. assert (PO : enabled d p \/ (c = 1 /\ p = 21%nat)) by auto. pose proof (p_free c p d PO) as PF.
  unfold render. set (n := if (frames <? 1)%Z then 1%Z else frames).
  destruct (project_total (re_z e) d pd n F) as (out & P).
  destruct (project_sr c 1 p d C PO (re_z e) n pd pd' out F F' RR P) as (out' & P' & E & K & K' & M1 & M2 & M3 & M1' & M2' & M3').
  rewrite P, P'. cbn [bind].
  assert (RO : rescaled [s; "intensity_factors"%string] c out out') by (apply (rows_rescaled s p c 1 out out' _ c Ep K K'); [rewrite N21; auto|exact E]).
  assert (SO : same_scene out out') by (destruct S as (S1 & S2 & S3); repeat split; congruence).
  destruct M as [-> | ->]; cbn [String.eqb Ascii.eqb Bool.eqb].
  - unfold nano_method. rewrite E, (render_airy_sr c 1 p C P1 PF). rewrite Rmult_1_r.
    destruct (render_airy _ _ _ _ _ _ _) as [im|]; cbn [mapr bind]; auto. split; auto. apply brighter_scale.
  - rewrite <- (scene_macro e d out out' _ _ SO). rewrite E. unfold macro_method. rewrite (render_macro_sr c 1 p C PF).
    destruct (render_macro _ _ _ _ _ _ _) as [im|]; cbn [mapr bind]; auto. split; auto. apply brighter_scale.
Qed.

Lemma large_sr c p l r : p = 5%nat \/ p = 19%nat \/ p = 20%nat \/ p = 21%nat -> large l (sr c 1 p r) = large l r.
Proof. intros H. unfold large. rewrite ncol_sr. change (act c 1 p 21) with 1. now rewrite tm_one. Qed.
Lemma small_sr c p l r : p = 5%nat \/ p = 19%nat \/ p = 20%nat \/ p = 21%nat -> MRender.small l (sr c 1 p r) = MRender.small l r.
Proof. intros H. unfold MRender.small. rewrite ncol_sr. change (act c 1 p 21) with 1. now rewrite tm_one. Qed.
Lemma add3_scale c a b : 0 < c -> add3 (scale3 c a) (scale3 c b) = scale3 c (add3 a b).
Proof. intros H. unfold add3, scale3. cbn [f_n f_h f_w f_at]. f_equal. do 3 (apply functional_extensionality; intros ?). now apply tm_add. Qed.
(** The automatic method, when no row falls into its middle class. *)
Lemma pC103_auto : forall e d s c pd pd' frames ml mi,
  fresh pd -> fresh pd' -> same_scene pd pd' -> 0 < c -> brightness_factor d s -> rescaled [s] c pd pd' ->
  (forall r, In r (pd_peaks pd) -> is_medium (macro_limit_of d ml) mi pd r = false) ->
  match render e d pd frames "auto" ml mi, render e d pd' frames "auto" ml mi with
  | Ok (im, out), Ok (im', out') => brighter c im im' /\ rescaled [s; "intensity_factors"%string] c out out'
  | Err x, Err x' => x = x'
  | _, _ => False
  end.
Proof.
  intros e d s c pd pd' frames ml mi F F' S C B R M.
  destruct (factor_enabled d s B) as (p & Ep & En & N21).
  assert (RR : pd_peaks pd' = map (sr c 1 p) (pd_peaks pd)) by (apply (rescaled_rows s p c 1 pd pd' Ep F F'); rewrite N21; auto).
  assert (P1 : 0 < 1) by lra. assert (PO : enabled d p \/ (c = 1 /\ p = 21%nat)) by auto. pose proof (p_free c p d PO) as PF.
  unfold render. set (n := if (frames <? 1)%Z then 1%Z else frames).
  destruct (project_total (re_z e) d pd n F) as (out & P).
  destruct (project_sr c 1 p d C PO (re_z e) n pd pd' out F F' RR P) as (out' & P' & E & K & K' & M1 & M2 & M3 & M1' & M2' & M3').
  rewrite P, P'. cbn [bind].
  assert (RO : rescaled [s; "intensity_factors"%string] c out out') by (apply (rows_rescaled s p c 1 out out' _ c Ep K K'); [rewrite N21; auto|exact E]).
  assert (SO : same_scene out out') by (destruct S as (S1 & S2 & S3); repeat split; congruence).
  cbn [String.eqb Ascii.eqb Bool.eqb]. fold (macro_limit_of d ml). set (mac := match ml with Some x => x | None => default_macro_limit d end).
  assert (MED : filter (medium mac mi) (pd_peaks out) = []).
  { assert (Z : forall r, In r (pd_peaks out) -> medium mac mi r = false).
    { intros r Hr. destruct (project_inv _ _ _ _ _ P) as (Ro & _). rewrite Ro in Hr. apply in_map_iff in Hr as (q & <- & Hq).
      apply filter_In in Hq as [Hq _]. specialize (M q Hq). destruct F as [Cq Lq]. rewrite Forall_forall in Lq. specialize (Lq q Hq).
      assert (V : ncol (extend (re_z e) d n q) 21 = volume_of pd q).
      { rewrite extend_eq by lia. destruct (get_intersection _ _ _ _) as [ [zd yd] a]. unfold ncol. rewrite app_nth1 by lia.
        unfold volume_of, field. rewrite Cq. change (index_of "volumes" column_names) with (Some 21%nat). apply nth_of_error. }
      unfold medium, large, MRender.small. rewrite V. exact M. }
    revert Z. generalize (pd_peaks out). intros l Z. clear - Z. induction l as [|x xs IH]; auto. cbn [filter]. rewrite Z by (left; auto). apply IH. intros r Hr. apply Z. right; auto. }
  assert (SEL : forall sel, (forall r, sel (sr c 1 p r) = sel r) -> filter sel (pd_peaks out') = map (sr c 1 p) (filter sel (pd_peaks out))).
  { intros sel H. rewrite E, PPass.filter_map. f_equal. apply filter_same. exact H. }
  rewrite (SEL (large mac)) by (intros; now apply large_sr). rewrite (SEL (MRender.small mi)) by (intros; now apply small_sr).
  rewrite (SEL (medium mac mi)) by (intros; unfold medium; now rewrite large_sr, small_sr). rewrite MED. cbn [map].
  assert (HM : forall l, macro_method e d out' (map (sr c 1 p) l) (Z.to_nat n) = mapr (scale3 c) (macro_method e d out l (Z.to_nat n)))
    by (intros l; rewrite <- (scene_macro e d out out' _ _ SO); apply (render_macro_sr c 1 p C PF)).
  assert (HN : forall l, nano_method e d (map (sr c 1 p) l) (Z.to_nat n) = mapr (scale3 c) (nano_method e d l (Z.to_nat n)))
    by (intros l; unfold nano_method; rewrite (render_airy_sr c 1 p C P1 PF), Rmult_1_r; reflexivity).
  rewrite HM, HN.
  assert (MIC : micro_method e d [] (Z.to_nat n) = Ok (zeros3 (Z.to_nat n) (d_nz d) (d_ny d))).
  { unfold micro_method, render_gauss, batches. cbn [List.length Nat.add].
    rewrite Nat.div_small; [reflexivity|]. pose proof (batch_size_range (re_free_micro e)). lia. }
  rewrite MIC. destruct (macro_method _ _ _ _ _) as [ma|]; cbn [mapr bind]; auto.
  destruct (nano_method _ _ _ _) as [na|]; cbn [mapr bind]; auto. split; auto.
  set (zz := zeros3 _ _ _). assert (EZ : zz = scale3 c zz) by apply zeros_scale. set (tot := add3 (add3 (add3 zz na) ma) zz).
  rewrite EZ, !add3_scale by assumption. apply brighter_scale.
Qed.

(** A table in which the recorded volumes are c times as large: 'nano' pictures are c times as bright, 'macro' pictures do not change. *)
Lemma pC103_volumes_nano : forall e d c pd pd' frames ml mi,
  fresh pd -> fresh pd' -> 0 < c -> rescaled ["volumes"%string] c pd pd' ->
  match render e d pd frames "nano" ml mi, render e d pd' frames "nano" ml mi with
  | Ok (im, out), Ok (im', out') => brighter c im im' /\ rescaled ["volumes"%string] c out out'
  | Err x, Err x' => x = x'
  | _, _ => False
  end.
Proof.
  intros e d c pd pd' frames ml mi F F' C R.
  assert (Ep : factor_column "volumes" = Some 21%nat) by reflexivity.
  assert (RR : pd_peaks pd' = map (sr 1 c 21) (pd_peaks pd)) by (apply (rescaled_rows "volumes" 21 1 c pd pd' Ep F F'); cbn; auto).
  assert (P1 : 0 < 1) by lra. assert (PO : enabled d 21 \/ (1 = 1 /\ 21%nat = 21%nat)) by auto. pose proof (p_free 1 21 d PO) as PF.
  unfold render. set (n := if (frames <? 1)%Z then 1%Z else frames).
  destruct (project_total (re_z e) d pd n F) as (out & P).
  destruct (project_sr 1 c 21 d P1 PO (re_z e) n pd pd' out F F' RR P) as (out' & P' & E & K & K' & M1 & M2 & M3 & M1' & M2' & M3').
  rewrite P, P'. cbn [bind].
  assert (RO : rescaled ["volumes"%string] c out out') by (apply (rows_rescaled "volumes" 21 1 c out out' _ c Ep K K'); [cbn; auto|exact E]).
  cbn [String.eqb Ascii.eqb Bool.eqb].
  unfold nano_method. rewrite E, (render_airy_sr 1 c 21 P1 C PF). rewrite Rmult_1_l.
  destruct (render_airy _ _ _ _ _ _ _) as [im|]; cbn [mapr bind]; auto. split; auto. apply brighter_scale.
Qed.
Lemma scale3_one im : scale3 1 im = im.
Proof. destruct im as [n0 h0 w0 g0]. unfold scale3. cbn [f_n f_h f_w f_at]. f_equal. do 3 (apply functional_extensionality; intros ?). apply tm_one. Qed.
Lemma pC103_volumes_macro : forall e d c pd pd' frames ml mi,
  fresh pd -> fresh pd' -> same_scene pd pd' -> 0 < c -> rescaled ["volumes"%string] c pd pd' ->
  match render e d pd frames "macro" ml mi, render e d pd' frames "macro" ml mi with
  | Ok (im, out), Ok (im', out') => im = im' /\ rescaled ["volumes"%string] c out out'
  | Err x, Err x' => x = x'
  | _, _ => False
  end.
Proof.
  intros e d c pd pd' frames ml mi F F' S C R.
  assert (Ep : factor_column "volumes" = Some 21%nat) by reflexivity.
  assert (RR : pd_peaks pd' = map (sr 1 c 21) (pd_peaks pd)) by (apply (rescaled_rows "volumes" 21 1 c pd pd' Ep F F'); cbn; auto).
  assert (P1 : 0 < 1) by lra. assert (PO : enabled d 21 \/ (1 = 1 /\ 21%nat = 21%nat)) by auto. pose proof (p_free 1 21 d PO) as PF.
  unfold render. set (n := if (frames <? 1)%Z then 1%Z else frames).
  destruct (project_total (re_z e) d pd n F) as (out & P).
  destruct (project_sr 1 c 21 d P1 PO (re_z e) n pd pd' out F F' RR P) as (out' & P' & E & K & K' & M1 & M2 & M3 & M1' & M2' & M3').
  rewrite P, P'. cbn [bind].
  assert (RO : rescaled ["volumes"%string] c out out') by (apply (rows_rescaled "volumes" 21 1 c out out' _ c Ep K K'); [cbn; auto|exact E]).
  assert (SO : same_scene out out') by (destruct S as (S1 & S2 & S3); repeat split; congruence).
  cbn [String.eqb Ascii.eqb Bool.eqb].
  rewrite <- (scene_macro e d out out' _ _ SO). rewrite E. unfold macro_method. rewrite (render_macro_sr 1 c 21 P1 PF).
  destruct (render_macro _ _ _ _ _ _ _) as [im|]; cbn [mapr bind]; auto. split; auto. now rewrite scale3_one.
Qed.

(** ** The 'micro' method is proportional up to its cut-off *)
Lemma gauss_spot_scale c sg rad zc yc T i j : 0 < c ->
  Rabs (gauss_spot sg rad zc yc (c * T) i j - c * gauss_spot sg rad zc yc T i j) <= Rmax 1 c * / 10^6.
Proof.
  intros C. unfold gauss_spot. cbv zeta.
  set (q := gauss_at sg zc yc i j / (gauss_window_sum sg rad zc yc + / 10 ^ 12)).
  assert (P6 : 0 < / 10^6) by (apply Rinv_0_lt_compat, pow_lt; lra).
  assert (M1 : 1 <= Rmax 1 c) by apply Rmax_l. assert (M2 : c <= Rmax 1 c) by apply Rmax_r.
  assert (MP : 0 <= Rmax 1 c * / 10^6) by (apply Rmult_le_pos; lra).
  assert (L1 : / 10^6 <= Rmax 1 c * / 10^6) by nra. assert (L2 : c * / 10^6 <= Rmax 1 c * / 10^6) by (apply Rmult_le_compat_r; lra).
  match goal with |- context [andb ?a (Rltb _ _)] => destruct a end; cbn [andb]; [|replace (0 - c * 0) with 0 by ring; rewrite Rabs_R0; exact MP].
  replace (q * (c * T)) with (c * (q * T)) by ring. set (x := q * T). set (eps := / 10^6) in *.
  destruct (Rltb eps (c * x)) eqn:A, (Rltb eps x) eqn:B.
  - replace (c * x - c * x) with 0 by ring. rewrite Rabs_R0. exact MP.
  - apply Rltb_iff' in A. assert (x <= eps) by (apply Rnot_lt_le; intros Q; apply Rltb_iff' in Q; congruence).
    rewrite Rabs_pos_eq by lra. assert (c * x <= c * eps) by (apply Rmult_le_compat_l; lra). lra.
  - apply Rltb_iff' in B. assert (c * x <= eps) by (apply Rnot_lt_le; intros Q; apply Rltb_iff' in Q; congruence).
    assert (0 < c * x) by (apply Rmult_lt_0_compat; lra). rewrite Rabs_left by lra. lra.
  - replace (0 - c * 0) with 0 by ring. rewrite Rabs_R0. exact MP.
Qed.
Lemma sum_close (f g : list num -> R) (h : list num -> list num) c eps l :
  (forall r, In r l -> Rabs (g (h r) - c * f r) <= eps) -> Rabs (sum_list (map g (map h l)) - c * sum_list (map f l)) <= INR (len l) * eps.
Proof.
  intros H. induction l as [|x xs IH].
  - cbn [map]. rewrite !sum_list_nil. cbn [List.length INR]. replace (0 - c * 0) with 0 by ring. rewrite Rabs_R0. lra.
  - cbn [map]. rewrite !sum_list_cons. change (len (x :: xs)) with (S (len xs)). rewrite S_INR.
    specialize (IH (fun r Hr => H r (or_intror Hr))). specialize (H x (or_introl eq_refl)).
    replace (g (h x) + sum_list (map g (map h xs)) - c * (f x + sum_list (map f xs))) with
      ((g (h x) - c * f x) + (sum_list (map g (map h xs)) - c * sum_list (map f xs))) by ring.
    eapply Rle_trans; [apply Rabs_triang|]. lra.
Qed.
Lemma pC103_micro_near : forall e d s c pd pd' frames ml mi im im' out out' f i j,
  fresh pd -> fresh pd' -> volumes_ok pd -> 0 < c -> brightness_factor d s -> rescaled [s] c pd pd' ->
  render e d pd frames "micro" ml mi = Ok (im, out) -> render e d pd' frames "micro" ml mi = Ok (im', out') -> in_image im f i j ->
  exists x x', f_at im f i j = Fin x /\ f_at im' f i j = Fin x' /\
    Rabs (x' - c * x) <= INR (List.length (rows_in_frame out f)) * (Rmax 1 c * / 10^6).
Proof.
  intros e d s c pd pd' frames ml mi im im' out out' f i j F F' V C B R H H' I.
  destruct (factor_enabled d s B) as (p & Ep & En & N21).
  assert (RR : pd_peaks pd' = map (sr c 1 p) (pd_peaks pd)) by (apply (rescaled_rows s p c 1 pd pd' Ep F F'); rewrite N21; auto).
  assert (PO : enabled d p \/ (c = 1 /\ p = 21%nat)) by auto. pose proof (p_free c p d PO) as PF.
  pose proof (nframes_ge frames) as NF.
  destruct (micro_inv _ _ _ _ _ _ _ _ H) as [P Q]. destruct (micro_inv _ _ _ _ _ _ _ _ H') as [P' Q'].
  destruct (project_sr c 1 p d C PO (re_z e) _ pd pd' out F F' RR P) as (o & P2 & E & K & K' & _).
  assert (o = out') by congruence. subst o.
  assert (V' : volumes_ok pd').
  { intros r Hr. rewrite RR in Hr. apply in_map_iff in Hr as (q & <- & Hq). destruct (V q Hq) as (v & Hv & Hp). exists v. split; auto.
    unfold has, field in *. destruct F as [C1 _], F' as [C2 _]. rewrite C1 in Hv. rewrite C2. change (index_of "volumes" column_names) with (Some 21%nat) in *.
    unfold sr. rewrite scl_error, Hv. cbn [option_map]. change (act c 1 p (0 + 21)) with 1. now rewrite tm_one. }
  assert (I' : in_image im' f i j).
  { unfold in_image in *. unfold index_put in Q, Q'. destruct (traverse _ _) in Q; [|discriminate]. destruct (traverse _ _) in Q'; [|discriminate].
    cbn [bind] in Q, Q'. apply (f_equal (fun r => match r with Ok m => (f_n m, f_h m, f_w m) | Err _ => (0, 0, 0)%nat end)) in Q.
    apply (f_equal (fun r => match r with Ok m => (f_n m, f_h m, f_w m) | Err _ => (0, 0, 0)%nat end)) in Q'. cbn in Q, Q'.
    assert (EE : (f_n im', f_h im', f_w im') = (f_n im, f_h im, f_w im)) by congruence. congruence. }
  rewrite (pC39_pixel_is_sum_of_spots _ _ _ _ _ _ _ _ _ _ _ F V H I), (pC39_pixel_is_sum_of_spots _ _ _ _ _ _ _ _ _ _ _ F' V' H' I').
  eexists _, _. split; [reflexivity|]. split; [reflexivity|].
  assert (RD : forall r, In r (pd_peaks out) -> read out' (sr c 1 p r) "frame" = read out r "frame" /\
     read out' (sr c 1 p r) "zd" = read out r "zd" /\ read out' (sr c 1 p r) "yd" = read out r "yd" /\ strength out' (sr c 1 p r) = c * strength out r).
  { intros r Hr. destruct (out_reads _ _ _ _ _ _ F NF P Hr) as (E1 & E2 & E3 & E4 & E5 & _).
    assert (Hr' : In (sr c 1 p r) (pd_peaks out')) by (rewrite E; now apply in_map).
    destruct (out_reads _ _ _ _ _ _ F' NF P' Hr') as (G1 & G2 & G3 & G4 & G5 & _).
    unfold strength. rewrite E1, E2, E3, E4, E5, G1, G2, G3, G4, G5. rewrite !(fcol_same c 1 p PF) by (cbn; tauto). repeat split; auto.
    unfold fcol. rewrite !(ncol_sr c 1 p). change (act c 1 p 21) with 1. change (act c 1 p 29) with c. rewrite tm_one.
    destruct (projected_prow _ _ _ _ _ _ F NF P Hr) as (k & zd & yd & it & PR). rewrite (pr_i _ _ _ _ _ _ _ PR). cbn. ring. }
  assert (RF : rows_in_frame out' f = map (sr c 1 p) (rows_in_frame out f)).
  { unfold rows_in_frame. rewrite E, PPass.filter_map. f_equal.
    apply filter_ext_in. intros r Hr. now rewrite (proj1 (RD r Hr)). }
  rewrite RF. apply sum_close. intros r Hr. apply filter_In in Hr as [Hr _]. destruct (RD r Hr) as (_ & R2 & R3 & R4).
  unfold micro_spot. rewrite R2, R3, R4. now apply gauss_spot_scale.
Qed.
