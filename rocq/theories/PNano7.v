(** * Nano rendering: pictures of small or equal discs add up (C101). *)
From Verif Require Import Vec Spec MMotion MLaue MMesh MScattering MStrain MBeam MPolycrystal SPolycrystal MDetector SDetector.
From Verif Require Import MRender SRender SNano SNano2 SJoin SNumber PLaue PMesh PScattering PBeam PDetector PDetector2 PDetector3 PDetector4 PRender PRender2 PRender2b PRenderEx PRender3 PKernel PKernel2 PKernel3 PMacro PPolycrystal PEvents PEnd2 PJoin2 PPass2 PNumber2 PWindow3 PNano PNanoEx PNano2 PNano3 PNano4 PNano5 PNano6.
From Coq Require Import Permutation FunctionalExtensionality String.
Open Scope list_scope. Open Scope R_scope.
Local Notation len := List.length.

(** ** Convolution is linear *)
Lemma nmul_nadd a b c : nmul (nadd a b) (Fin c) = nadd (nmul a (Fin c)) (nmul b (Fin c)).
Proof.
  assert (O : c <> 0 -> (Rltb 0 c = true /\ Rltb c 0 = false) \/ (Rltb 0 c = false /\ Rltb c 0 = true)).
  { intros H. destruct (Rtotal_order c 0) as [L|[L|L]]; [right|contradiction|left]; split; (apply Rltb_true; lra) || (apply Rltb_false; lra). }
  destruct a, b; unfold nadd; cbn [nmul]; try (f_equal; ring); try reflexivity;
  destruct (Req_EM_T c 0) as [E|E]; try reflexivity; try contradiction; destruct (O E) as [[X Y]|[X Y]]; rewrite ?X, ?Y; reflexivity.
Qed.
Lemma conv2_add k g h w f1 f2 i j : entries k g -> conv2 k h w (fun a b => nadd (f1 a b) (f2 a b)) i j = nadd (conv2 k h w f1 i j) (conv2 k h w f2 i j).
Proof.
  intros He. unfold conv2. cbv zeta. rewrite <- nsum_add. apply nsum_ext. intros [a b] Hin. cbn [fst snd]. apply in_prod_iff in Hin as [Ha Hb]. apply in_seq in Ha, Hb.
  rewrite (He a b ltac:(lia) ltac:(lia)). rewrite <- nmul_nadd. f_equal. unfold padded. destruct (_ && _)%bool; [reflexivity|]. now rewrite nadd_0_l.
Qed.
Lemma conv2_zero k g h w i j : entries k g -> conv2 k h w (fun _ _ => Fin 0) i j = Fin 0.
Proof.
  intros He. unfold conv2. cbv zeta. apply nsum_zero. intros [a b] Hin. cbn [fst snd]. apply in_prod_iff in Hin as [Ha Hb]. apply in_seq in Ha, Hb.
  rewrite (He a b ltac:(lia) ltac:(lia)). unfold padded. destruct (_ && _)%bool; cbn [nmul]; f_equal; ring.
Qed.

(** ** The picture as a function of the projected rows, empty tables included *)
Definition drawn (e : render_env) (d : detector) (psf : kernel) (R : R) (f : nat) (rows : list (list num)) (i j : nat) : num :=
  nsum (map (contrib d (fun r => fst (airy_kernel (re_z e) (re_j1 e) d psf R (first_zero (re_z e) d r))) f i j) rows).
Lemma uniform_same d out : uniform_discs d out -> same_size d out.
Proof. exact (fun H => H). Qed.
Lemma nano_formula e e0 d pd frames ml mi out psf g R : fresh pd -> volumes_ok pd -> built d -> 0 < d_pz d -> permutes (re_argsort e) ->
  re_z e = re_z e0 -> re_j1 e = re_j1 e0 -> psf_kernel d = Ok psf -> entries psf g ->
  project (re_z e) d pd (nframes frames) = Ok out -> (forall r, In r (pd_peaks out) -> proper_disc out r) -> uniform_discs d out ->
  (forall r, In r (pd_peaks out) -> airy_radius d (Fin (disc_radius d out r)) = Ok R) ->
  exists im, render e d pd frames "nano" ml mi = Ok (im, out) /\ has_shape im (Z.to_nat (nframes frames)) (d_nz d) (d_ny d) /\
    forall f i j, (f < Z.to_nat (nframes frames))%nat -> f_at im f i j = conv2 psf (d_nz d) (d_ny d) (drawn e0 d psf R f (pd_peaks out)) i j.
Proof.
  intros Hf Hv Hb Pz Hp Ez Ej Hk He Ho Hd Hs HR. pose proof (nframes_ge frames) as Hn.
  unfold render. cbv zeta. fold (nframes frames). rewrite Ho. cbn [bind String.eqb Ascii.eqb Bool.eqb].
  destruct (pd_peaks out) as [|r0 rows] eqn:Er.
  { eexists. split; [reflexivity|]. split; [repeat split|]. intros f i j Hlt. cbn [zeros3 f_at]. unfold drawn. cbn [map]. symmetry. rewrite nsum_nil. eapply conv2_zero, He. }
  rewrite <- Er in *. assert (Hne : pd_peaks out <> []) by (rewrite Er; discriminate).
  destruct (nano_image e d pd (nframes frames) out psf Hf Hv Hb Pz Hn Ho Hne Hk Hd (uniform_same _ _ Hs)) as (R' & HR' & I).
  assert (RR : R' = R). { assert (H0 : In r0 (pd_peaks out)) by (rewrite Er; now left). specialize (HR _ H0). specialize (HR' _ H0). congruence. }
  subst R'. rewrite (I e eq_refl eq_refl Hp). cbn [bind]. eexists. split; [reflexivity|]. split; [repeat split|].
  intros f i j Hlt. cbn [conv3 f_at f_h f_w]. f_equal. extensionality a. extensionality b. apply Nat.ltb_lt in Hlt. rewrite Hlt. unfold drawn. rewrite <- Ez, <- Ej.
  apply nsum_ext. intros r Hr. unfold contrib. now rewrite (rows_fz e d pd frames out Hf Pz Ho r Hr (Hd r Hr)).
Qed.

(** ** Rows with the same entries *)
Definition agree25 (r r' : list num) : Prop := len r = 25%nat /\ len r' = 25%nat /\ forall j, (2 <= j <= 23)%nat -> ncol r j = ncol r' j.
Lemma alike_agree pd pd' r r' : fresh pd -> fresh pd' -> In r (pd_peaks pd) -> In r' (pd_peaks pd') -> alike pd pd' r r' -> agree25 r r'.
Proof.
  intros [C F] [C' F'] Hr Hr' H. rewrite Forall_forall in F, F'. split; [auto|]. split; [auto|]. intros j Hj. unfold ncol. rewrite !nth_of_error.
  assert (E : exists c, c <> "grain_index"%string /\ c <> "phase_number"%string /\ c <> "peak_index"%string /\ index_of c column_names = Some j).
  { exists (nth j column_names ""%string). do 24 (destruct j as [|j]; [try lia; repeat split; discriminate|]). lia. }
  destruct E as (c & N1 & N2 & N3 & E). specialize (H c N1 N2 N3). rewrite (field_nth pd r c j C E), (field_nth pd' r' c j C' E) in H. now rewrite H.
Qed.
Lemma agree_fields d r r' : agree25 r r' -> row_nvec r 13 = row_nvec r' 13 /\ row_nvec r 16 = row_nvec r' 16 /\ intensity d r = intensity d r' /\ ncol r 6 = ncol r' 6.
Proof.
  intros (_ & _ & H). unfold row_nvec, intensity. rewrite !H by lia. repeat split.
Qed.
Lemma agree_keep z d frames r r' : agree25 r r' -> keepb z d frames r = keepb z d frames r'.
Proof.
  intros A. destruct (agree_fields d _ _ A) as (E1 & E2 & E3 & _). destruct A as (L & L' & _).
  destruct (get_intersection z d (row_nvec r 13) (row_nvec r 16)) as [[zd yd] a] eqn:E.
  rewrite (keepb_fresh z d frames r zd yd a L E). rewrite E1, E2 in E. rewrite (keepb_fresh z d frames r' zd yd a L' E). now rewrite E3.
Qed.
Lemma agree_extend z d frames r r' : agree25 r r' -> forall j, (2 <= j <= 29)%nat -> j <> 24%nat -> ncol (extend z d frames r) j = ncol (extend z d frames r') j.
Proof.
  intros A j Hj N. destruct (agree_fields d _ _ A) as (E1 & E2 & E3 & E4). destruct A as (L & L' & H).
  rewrite !extend_eq by lia. rewrite E1, E2, E3, E4. destruct (get_intersection _ _ _ _) as [[zd yd] a].
  destruct (le_lt_dec j 23) as [J|J]; [rewrite !ncol_app_l by lia; apply H; lia|]. rewrite !ncol_app_r by lia. now rewrite L, L'.
Qed.
Lemma agree_contrib e d psf R f i j q q' : (forall j, (2 <= j <= 29)%nat -> j <> 24%nat -> ncol q j = ncol q' j) ->
  contrib d (fun r => fst (airy_kernel (re_z e) (re_j1 e) d psf R (first_zero (re_z e) d r))) f i j q =
  contrib d (fun r => fst (airy_kernel (re_z e) (re_j1 e) d psf R (first_zero (re_z e) d r))) f i j q'.
Proof.
  intros H. unfold contrib, pos_z, pos_y, peak_intensity, first_zero, fcol. rewrite !H by lia. reflexivity.
Qed.
Lemma F2_filter_map {A} (P Q : A -> A -> Prop) (k : A -> bool) (f : A -> A) l l' :
  (forall a b, P a b -> k a = k b /\ Q (f a) (f b)) -> Forall2 P l l' -> Forall2 Q (map f (filter k l)) (map f (filter k l')).
Proof.
  intros H. induction 1 as [|a b l l' Hab _ IH]; cbn; [constructor|]. destruct (H a b Hab) as [E1 E2]. rewrite E1. destruct (k b); cbn; auto.
Qed.
Lemma F2_with_in {A B} (P : A -> B -> Prop) l l' : Forall2 P l l' -> Forall2 (fun a b => In a l /\ In b l' /\ P a b) l l'.
Proof.
  induction 1 as [|a b l l' Hab _ IH]; constructor; [split; [now left|split; [now left|auto]]|].
  eapply Forall2_impl'; [|exact IH]. cbn. intros x y (X & Y & Z). split; [now right|split; [now right|auto]].
Qed.
(** What a table whose rows recur in another one inherits. *)
Lemma part_of e e1 d pd pd1 frames ml mi out out1 part part' psf g R :
  fresh pd -> fresh pd1 -> volumes_ok pd -> built d -> 0 < d_pz d -> permutes (re_argsort e1) -> re_z e1 = re_z e -> re_j1 e1 = re_j1 e ->
  psf_kernel d = Ok psf -> entries psf g ->
  project (re_z e) d pd (nframes frames) = Ok out -> project (re_z e) d pd1 (nframes frames) = Ok out1 ->
  (forall r, In r (pd_peaks out) -> proper_disc out r) -> uniform_discs d out ->
  (forall r, In r (pd_peaks out) -> airy_radius d (Fin (disc_radius d out r)) = Ok R) ->
  incl part (pd_peaks pd) -> Forall2 (alike pd1 pd) (pd_peaks pd1) part -> part' = map (extend (re_z e) d (nframes frames)) (filter (keepb (re_z e) d (nframes frames)) part) ->
  exists im1, render e1 d pd1 frames "nano" ml mi = Ok (im1, out1) /\ has_shape im1 (Z.to_nat (nframes frames)) (d_nz d) (d_ny d) /\
    forall f i j, (f < Z.to_nat (nframes frames))%nat -> f_at im1 f i j = conv2 psf (d_nz d) (d_ny d) (drawn e d psf R f part') i j.
Proof.
  intros Hf Hf1 Hv Hb Pz Hp Ez Ej Hk He Ho Ho1 Hd Hs HR Hi F2 EP. set (N := nframes frames) in *.
  destruct (project_inv _ _ _ _ _ Ho) as (PO & _). destruct (project_inv _ _ _ _ _ Ho1) as (PO1 & _).
  pose proof (out_columns _ _ _ _ _ Hf Ho) as C. pose proof (out_columns _ _ _ _ _ Hf1 Ho1) as C1.
  assert (F2' : Forall2 agree25 (pd_peaks pd1) part).
  { eapply Forall2_impl'; [|apply F2_with_in, F2]. cbn. intros a b (X & Y & Z). exact (alike_agree pd1 pd a b Hf1 Hf X (Hi _ Y) Z). }
  assert (FQ : Forall2 (fun q1 q => len q1 = 30%nat /\ len q = 30%nat /\ forall j, (2 <= j <= 29)%nat -> j <> 24%nat -> ncol q1 j = ncol q j) (pd_peaks out1) part').
  { rewrite PO1, EP. eapply F2_filter_map; [|exact F2']. intros a b A. split; [now apply agree_keep|].
    split; [|split; [|intros; now apply agree_extend]]; destruct A as (L & L' & _); rewrite extend_eq by lia; destruct (get_intersection _ _ _ _) as [[zd yd] an]; rewrite app_length, ?L, ?L'; reflexivity. }
  assert (IP : incl part' (pd_peaks out)).
  { intros q Hq. rewrite EP in Hq. rewrite PO. apply in_map_iff in Hq as (r & <- & Hr). apply filter_In in Hr as [Hr Kr]. apply in_map, filter_In. split; auto. }
  assert (V1 : volumes_ok pd1).
  { intros r Hr. destruct (Forall2_in_l _ _ _ _ (F2_with_in _ _ _ F2) Hr) as (r' & _ & _ & Hr' & A). destruct (Hv r' (Hi _ Hr')) as (v & Hvv & Hv0). exists v. split; auto.
    unfold has in *. rewrite <- Hvv. symmetry. apply A; discriminate. }
  assert (M : forall q1, In q1 (pd_peaks out1) -> exists q, In q (pd_peaks out) /\ proper_disc out1 q1 /\ disc_radius d out1 q1 = disc_radius d out q).
  { intros q1 H1. destruct (Forall2_in_l _ _ _ _ (F2_with_in _ _ _ FQ) H1) as (q & _ & _ & Hq & L1 & L & E). exists q. split; [now apply IP|].
    assert (FE : forall s j, index_of s (column_names ++ new_columns) = Some j -> (2 <= j <= 29)%nat -> j <> 24%nat -> field out1 q1 s = field out q s).
    { intros s j Hs' Hj Nj. unfold field. rewrite C, C1, Hs'. rewrite !nth_error_ncol by lia. now rewrite E. }
    assert (E1 : field out1 q1 "scherrer_fwhm" = field out q "scherrer_fwhm") by (apply (FE _ 23%nat); [reflexivity|lia|lia]).
    assert (E2 : field out1 q1 "incident_angle" = field out q "incident_angle") by (apply (FE _ 27%nat); [reflexivity|lia|lia]).
    pose proof (Hd q (IP _ Hq)) as (D1 & D2 & D3). unfold has, read in *. unfold proper_disc, disc_radius, has, read. rewrite E1, E2. repeat split; auto. }
  destruct (nano_formula e1 e d pd1 frames ml mi out1 psf g R Hf1 V1 Hb Pz Hp Ez Ej Hk He) as (im1 & I1 & S1 & A1).
  - now rewrite Ez.
  - intros q1 H1. now destruct (M q1 H1) as (q & _ & P & _).
  - destruct Hs as [Hs|Hs]; [left|right].
    + intros q1 H1. destruct (M q1 H1) as (q & Hq & _ & ->). auto.
    + intros q1 q2 H1 H2. destruct (M q1 H1) as (q & Hq & _ & ->). destruct (M q2 H2) as (q' & Hq' & _ & ->). auto.
  - intros q1 H1. destruct (M q1 H1) as (q & Hq & _ & ->). auto.
  - exists im1. split; [exact I1|]. split; [exact S1|]. intros f i j Hlt. rewrite (A1 f i j Hlt). f_equal. extensionality a. extensionality b. unfold drawn.
    clear - FQ. induction FQ as [|q1 q l l' (_ & _ & E) _ IH]; [reflexivity|]. cbn [map]. rewrite !nsum_cons. f_equal; [|exact IH]. now apply agree_contrib.
Qed.
Lemma common_radius d out : uniform_discs d out -> exists R, forall r, In r (pd_peaks out) -> airy_radius d (Fin (disc_radius d out r)) = Ok R.
Proof.
  intros [H|H].
  - destruct (small_radius d) as (n & _ & Hn). exists (IZR n). auto.
  - destruct (pd_peaks out) as [|r0 rows] eqn:E; [exists 0; intros r []|].
    assert (exists R, airy_radius d (Fin (disc_radius d out r0)) = Ok R) as [R HR] by (unfold airy_radius; eexists; reflexivity).
    exists R. intros r Hr. rewrite (H r r0); auto. now left.
Qed.
Lemma psf_entries_built d : built d -> d_sigma d <> 0 -> exists psf g, psf_kernel d = Ok psf /\ entries psf g.
Proof.
  intros Hb Hs. assert (Hm : (0 <= d_max_radius d)%Z) by (pose proof (proj1 (pC46_built_has_kernel d Hb)); lia).
  destruct (pC46_kernel d Hs Hm) as (k & g & Hk & He & _). eauto.
Qed.
(** Two tables whose rows together make up a third: all three pictures can be made, on whatever machines, and the
    third is the sum of the first two. *)
Lemma pC101_superposition : forall e e1 e2 d pd pd1 pd2 part1 part2 frames ml mi out,
  fresh pd -> fresh pd1 -> fresh pd2 -> volumes_ok pd -> built d -> 0 < d_pz d -> d_sigma d <> 0 ->
  permutes (re_argsort e) -> permutes (re_argsort e1) -> permutes (re_argsort e2) ->
  re_z e1 = re_z e -> re_z e2 = re_z e -> re_j1 e1 = re_j1 e -> re_j1 e2 = re_j1 e ->
  project (re_z e) d pd (if (frames <? 1)%Z then 1%Z else frames) = Ok out ->
  (forall r, In r (pd_peaks out) -> proper_disc out r) -> uniform_discs d out ->
  Permutation (pd_peaks pd) (part1 ++ part2) -> Forall2 (alike pd1 pd) (pd_peaks pd1) part1 -> Forall2 (alike pd2 pd) (pd_peaks pd2) part2 ->
  exists im im1 im2 out1 out2, render e d pd frames "nano" ml mi = Ok (im, out) /\
    render e1 d pd1 frames "nano" ml mi = Ok (im1, out1) /\ render e2 d pd2 frames "nano" ml mi = Ok (im2, out2) /\ same_image im (add3 im1 im2).
Proof.
  intros e e1 e2 d pd pd1 pd2 part1 part2 frames ml mi out Hf Hf1 Hf2 Hv Hb Pz Sg Hp Hp1 Hp2 Z1 Z2 J1 J2 Ho Hd Hs PM A1 A2.
  fold (nframes frames) in Ho. destruct (psf_entries_built d Hb Sg) as (psf & g & Hk & He). destruct (common_radius d out Hs) as (R & HR).
  destruct (fresh_project (re_z e) d pd1 (nframes frames) Hf1) as (out1 & Ho1). destruct (fresh_project (re_z e) d pd2 (nframes frames) Hf2) as (out2 & Ho2).
  destruct (nano_formula e e d pd frames ml mi out psf g R Hf Hv Hb Pz Hp eq_refl eq_refl Hk He Ho Hd Hs HR) as (im & I & S & F).
  destruct (part_of e e1 d pd pd1 frames ml mi out out1 part1 (map (extend (re_z e) d (nframes frames)) (filter (keepb (re_z e) d (nframes frames)) part1)) psf g R Hf Hf1 Hv Hb Pz Hp1 Z1 J1 Hk He Ho Ho1 Hd Hs HR) as (im1 & I1 & S1 & F1); auto.
  { intros r Hr. apply (Permutation_in _ (Permutation_sym PM)), in_app_iff. now left. }
  destruct (part_of e e2 d pd pd2 frames ml mi out out2 part2 (map (extend (re_z e) d (nframes frames)) (filter (keepb (re_z e) d (nframes frames)) part2)) psf g R Hf Hf2 Hv Hb Pz Hp2 Z2 J2 Hk He Ho Ho2 Hd Hs HR) as (im2 & I2 & S2 & F2); auto.
  { intros r Hr. apply (Permutation_in _ (Permutation_sym PM)), in_app_iff. now right. }
  exists im, im1, im2, out1, out2. split; [exact I|]. split; [exact I1|]. split; [exact I2|].
  destruct S as (Sa & Sb & Sc). destruct S1 as (S1a & S1b & S1c). split; [unfold has_shape, add3; cbn [f_n f_h f_w]; rewrite S1a, S1b, S1c; auto|].
  intros f i j (Hlt & _). cbn [add3 f_n f_at] in *. rewrite S1a in Hlt. rewrite (F f i j Hlt), (F1 f i j Hlt), (F2 f i j Hlt).
  rewrite <- (conv2_add psf g _ _ _ _ i j He). f_equal. extensionality a. extensionality b. unfold drawn. rewrite <- nsum_app, <- map_app. apply nsum_perm, Permutation_map.
  rewrite <- map_app, <- filter_app. rewrite (proj1 (project_inv _ _ _ _ _ Ho)). apply Permutation_map. now apply perm_filter.
Qed.
(** Two tables with the same spots, in any order and under any numbers: the same picture. *)
Lemma pC101_same_picture : forall e e' d pd pd' rows frames ml mi ml' mi' out,
  fresh pd -> fresh pd' -> volumes_ok pd -> built d -> 0 < d_pz d -> d_sigma d <> 0 ->
  permutes (re_argsort e) -> permutes (re_argsort e') -> re_z e' = re_z e -> re_j1 e' = re_j1 e ->
  project (re_z e) d pd (if (frames <? 1)%Z then 1%Z else frames) = Ok out ->
  (forall r, In r (pd_peaks out) -> proper_disc out r) -> uniform_discs d out ->
  Permutation (pd_peaks pd) rows -> Forall2 (alike pd' pd) (pd_peaks pd') rows ->
  exists im im' out', render e d pd frames "nano" ml mi = Ok (im, out) /\ render e' d pd' frames "nano" ml' mi' = Ok (im', out') /\ same_image im im'.
Proof.
  intros e e1 d pd pd1 part1 frames ml mi ml' mi' out Hf Hf1 Hv Hb Pz Sg Hp Hp1 Z1 J1 Ho Hd Hs PM A1.
  fold (nframes frames) in Ho. destruct (psf_entries_built d Hb Sg) as (psf & g & Hk & He). destruct (common_radius d out Hs) as (R & HR).
  destruct (fresh_project (re_z e) d pd1 (nframes frames) Hf1) as (out1 & Ho1).
  destruct (nano_formula e e d pd frames ml mi out psf g R Hf Hv Hb Pz Hp eq_refl eq_refl Hk He Ho Hd Hs HR) as (im & I & S & F).
  destruct (part_of e e1 d pd pd1 frames ml' mi' out out1 part1 (map (extend (re_z e) d (nframes frames)) (filter (keepb (re_z e) d (nframes frames)) part1)) psf g R Hf Hf1 Hv Hb Pz Hp1 Z1 J1 Hk He Ho Ho1 Hd Hs HR) as (im1 & I1 & S1 & F1); auto.
  { intros r Hr. now apply (Permutation_in _ (Permutation_sym PM)). }
  exists im, im1, out1. split; [exact I|]. split; [exact I1|].
  destruct S as (Sa & Sb & Sc). destruct S1 as (S1a & S1b & S1c). split; [unfold has_shape; rewrite S1a, S1b, S1c; auto|].
  intros f i j (Hlt & _). rewrite S1a in Hlt. rewrite (F f i j Hlt), (F1 f i j Hlt).
  f_equal. extensionality a. extensionality b. unfold drawn. apply nsum_perm, Permutation_map.
  rewrite (proj1 (project_inv _ _ _ _ _ Ho)). apply Permutation_map. now apply perm_filter.
Qed.

(** ** Samples *)
Lemma counterpart_alike n pd1 pd r1 r : counterpart n pd1 pd r1 r -> alike pd1 pd r1 r.
Proof. intros [H _] c N1 _ N3. auto. Qed.
Lemma renamed_alike s u pd pd' r r' : renamed s u pd pd' r r' -> alike pd pd' r r'.
Proof. intros [H _] c N1 N2 N3. auto. Qed.
(** Two samples irradiated together (C90): their nano picture is the sum of their nano pictures. *)
Lemma pC101_joined_samples : forall e e1 e2 z x p1 p2 p b m lo hi pd1 pd2 pd s1 s2 s d frames ml mi out,
  reachable_pc x p1 -> reachable_pc x p2 -> reachable_pc x p -> joined p1 p2 p ->
  diffract z x p1 b m lo hi None = (Ok pd1, s1) -> diffract z x p2 b m lo hi None = (Ok pd2, s2) -> diffract z x p b m lo hi None = (Ok pd, s) ->
  built d -> 0 < d_pz d -> d_sigma d <> 0 ->
  permutes (re_argsort e) -> permutes (re_argsort e1) -> permutes (re_argsort e2) ->
  re_z e1 = re_z e -> re_z e2 = re_z e -> re_j1 e1 = re_j1 e -> re_j1 e2 = re_j1 e ->
  project (re_z e) d pd (if (frames <? 1)%Z then 1%Z else frames) = Ok out ->
  (forall r, In r (pd_peaks out) -> proper_disc out r) -> uniform_discs d out ->
  exists im im1 im2 out1 out2, render e d pd frames "nano" ml mi = Ok (im, out) /\
    render e1 d pd1 frames "nano" ml mi = Ok (im1, out1) /\ render e2 d pd2 frames "nano" ml mi = Ok (im2, out2) /\ same_image im (add3 im1 im2).
Proof.
  intros e e1 e2 z x p1 p2 p b m lo hi pd1 pd2 pd s1 s2 s d frames ml mi out R1 R2 R J D1 D2 D Hb Pz Sg Hp Hp1 Hp2 Z1 Z2 J1 J2 Ho Hd Hs.
  destruct (pC90_joint_table _ _ _ _ _ _ _ _ _ _ _ _ _ R1 R2 J D1 D2) as (pd' & s' & part1 & part2 & D' & PM & A1 & A2).
  rewrite D in D'. assert (E : pd = pd') by (apply ok_inj; exact (f_equal fst D')). subst pd'. clear D'.
  apply (pC101_superposition e e1 e2 d pd pd1 pd2 part1 part2); auto.
  - apply (pC32_diffract_tables_fresh z x p b m lo hi None); now rewrite D.
  - apply (pC32_diffract_tables_fresh z x p1 b m lo hi None); now rewrite D1.
  - apply (pC32_diffract_tables_fresh z x p2 b m lo hi None); now rewrite D2.
  - eapply volumes_ok_diffract; [|exact D]. auto.
  - eapply Forall2_impl'; [|exact A1]. intros; eapply counterpart_alike; eauto.
  - eapply Forall2_impl'; [|exact A2]. intros; eapply counterpart_alike; eauto.
Qed.
(** Renumbering the elements and phases of the sample (C91) does not change the nano picture. *)
Lemma pC101_renumbered_samples : forall e e' z x s u p q b m lo hi det pd pd' p' q' d frames ml mi out,
  reachable_pc x p -> reachable_pc x q -> renumbered s u p q ->
  diffract z x p b m lo hi det = (Ok pd, p') -> diffract z x q b m lo hi det = (Ok pd', q') ->
  built d -> 0 < d_pz d -> d_sigma d <> 0 ->
  permutes (re_argsort e) -> permutes (re_argsort e') -> re_z e = re_z e' -> re_j1 e = re_j1 e' ->
  project (re_z e') d pd' (if (frames <? 1)%Z then 1%Z else frames) = Ok out ->
  (forall r, In r (pd_peaks out) -> proper_disc out r) -> uniform_discs d out ->
  exists im im' out', render e' d pd' frames "nano" ml mi = Ok (im', out) /\ render e d pd frames "nano" ml mi = Ok (im, out') /\ same_image im' im.
Proof.
  intros e e' z x s u p q b m lo hi det pd pd' p' q' d frames ml mi out R R' HR D D' Hb Pz Sg Hp Hp' Ez Ej Ho Hd Hs.
  destruct (pC91_same_table z x s u p q b m lo hi det pd p' R HR D) as (pd2 & q2 & rows' & D2 & PM & A).
  rewrite D' in D2. assert (E : pd' = pd2) by (apply ok_inj; exact (f_equal fst D2)). subst pd2. clear D2.
  destruct (pC101_same_picture e' e d pd' pd rows' frames ml mi ml mi out) as (im & im' & out' & H1 & H2 & H3); auto.
  - apply (pC32_diffract_tables_fresh z x q b m lo hi det); now rewrite D'.
  - apply (pC32_diffract_tables_fresh z x p b m lo hi det); now rewrite D.
  - eapply volumes_ok_diffract; [|exact D']. auto.
  - eapply Forall2_impl'; [|exact A]. intros; eapply renamed_alike; eauto.
  - eauto 6.
Qed.

(** ** Examples *)
Lemma xC101_two_tables : exists e d pd pd1 pd2 part1 part2 out, fresh pd /\ fresh pd1 /\ fresh pd2 /\ volumes_ok pd /\ built d /\ 0 < d_pz d /\ d_sigma d <> 0 /\
  permutes (re_argsort e) /\ project (re_z e) d pd 2 = Ok out /\ (forall r, In r (pd_peaks out) -> proper_disc out r) /\ uniform_discs d out /\
  Permutation (pd_peaks pd) (part1 ++ part2) /\ Forall2 (alike pd1 pd) (pd_peaks pd1) part1 /\ Forall2 (alike pd2 pd) (pd_peaks pd2) part2 /\
  List.length (pd_peaks out) = 2%nat /\ part1 <> [] /\ part2 <> [] /\ exists r r', In r (pd_peaks out) /\ In r' (pd_peaks out) /\ disc_radius d out r <> disc_radius d out r'.
Proof.
  destruct ex_world as (me & b & _). set (e := ex_env 0 (fun _ => 1) sort_desc). set (ss := [disc_spot (1/4) 1; disc_spot (3/4) 2]). set (out := projected_table 2 ss me b).
  assert (HP : project false nano_det (spot_table ss me b) 2 = Ok out).
  { apply flat_project; try lra. apply Forall_cons; [|apply Forall_cons; [|apply Forall_nil]]; unfold good_spot; cbn [disc_spot s_y s_h s_sf]; change (IZR 41) with 41; repeat split; lra. }
  assert (PD : forall t x, proper_disc out (disc_row t x) /\ disc_radius nano_det out (disc_row t x) = x).
  { intros t x. assert (E1 : read out (disc_row t x) "incident_angle" = 0) by reflexivity. assert (E2 : read out (disc_row t x) "scherrer_fwhm" = x / (11861/1000)) by reflexivity.
    split; [split; [eexists; reflexivity|]; split; [eexists; reflexivity|]; rewrite E1, Rmult_0_l, cos_0; lra|].
    unfold disc_radius. rewrite E1, E2, Rmult_0_l, cos_0. change (d_c0 nano_det) with (V3 10 0 0). change (d_pz nano_det) with 1. rewrite (norm_sqrt_eq (V3 10 0 0) 10) by (vunf; lra). field. }
  set (pd := spot_table ss me b). set (pd1 := spot_table [disc_spot (1/4) 1] me b). set (pd2 := spot_table [disc_spot (3/4) 2] me b).
  exists e, nano_det, pd, pd1, pd2, (pd_peaks pd1), (pd_peaks pd2), out.
  split; [apply spot_fresh|]. split; [apply spot_fresh|]. split; [apply spot_fresh|].
  split; [apply volumes_spot; apply Forall_cons; [|apply Forall_cons; [|apply Forall_nil]]; cbn; lra|].
  split; [apply flat_built; [lra|lia]|]. split; [cbn; lra|]. split; [cbn; lra|]. split; [apply sort_permutes|]. split; [exact HP|].
  change (pd_peaks out) with [disc_row (1/4) 1; disc_row (3/4) 2].
  split; [intros r [<-|[<-|[]]]; apply PD|]. split; [left; change (pd_peaks out) with [disc_row (1/4) 1; disc_row (3/4) 2]; intros r [<-|[<-|[]]]; rewrite (proj2 (PD _ _)); lra|].
  split; [apply Permutation_refl|].
  split; [apply Forall2_cons; [intros c _ _ _; reflexivity|apply Forall2_nil]|]. split; [apply Forall2_cons; [intros c _ _ _; reflexivity|apply Forall2_nil]|].
  split; [reflexivity|]. split; [discriminate|]. split; [discriminate|].
  exists (disc_row (1/4) 1), (disc_row (3/4) 2). split; [now left|]. split; [right; now left|]. rewrite !(proj2 (PD _ _)). lra.
Qed.
(** Discs of different sizes: each of two tables can be drawn on a machine with 1 GB, the table that holds the rows of
    both raises RuntimeError there. *)
Lemma pC101_mixed_discs_refuted : forall j1 argsort, (forall y, Rabs (2 * j1 y) <= Rabs y) -> 1/10 <= Rabs (j1 (38317/10000 * sqrt (145/2) / (17/8))) ->
  permutes argsort -> descending argsort ->
  exists e d pd pd1 pd2 im1 im2 out1 out2, re_j1 e = j1 /\ re_argsort e = argsort /\ built d /\ 0 < d_pz d /\ d_sigma d <> 0 /\
    fresh pd /\ volumes_ok pd /\ pd_peaks pd = pd_peaks pd1 ++ pd_peaks pd2 /\ Forall2 (alike pd1 pd) (pd_peaks pd1) (pd_peaks pd1) /\ Forall2 (alike pd2 pd) (pd_peaks pd2) (pd_peaks pd2) /\
    render e d pd1 2 "nano" None 1 = Ok (im1, out1) /\ render e d pd2 2 "nano" None 1 = Ok (im2, out2) /\ render e d pd 2 "nano" None 1 = Err RuntimeError.
Proof.
  intros j1 argsort Hj Hv Hp Hd. destruct ex_world as (me & b & _). set (e := with_memory 1 (ex_env 0 j1 argsort)).
  assert (G : forall t x, 0 < t < 1 -> 0 < x -> exists im out, render e even_det (spot_table [disc_spot t x] me b) 2 "nano" None 1 = Ok (im, out)).
  { intros t x Ht Hx. set (out := projected_table 2 [disc_spot t x] me b).
    assert (HP : project false even_det (spot_table [disc_spot t x] me b) 2 = Ok out).
    { apply flat_project; try lra. apply Forall_cons; [|apply Forall_nil]; unfold good_spot; cbn [disc_spot s_y s_h s_sf]; change (IZR 41) with 41; repeat split; lra. }
    destruct (pC100_equal_radii e even_det (spot_table [disc_spot t x] me b) 2 None 1 out) as (im & H); [apply spot_fresh|apply flat_built; [lra|lia]|cbn; lra|exact Hp|exact HP| | |eauto].
    - intros r Hr. assert (exists y, r = disc_row y x) as (y & ->) by (destruct Hr as [<-|[]]; eexists; reflexivity).
      assert (E1 : read out (disc_row y x) "incident_angle" = 0) by reflexivity.
      split; [eexists; reflexivity|]. split; [eexists; reflexivity|]. rewrite E1, Rmult_0_l, cos_0. lra.
    - intros r r' [<-|[]] [<-|[]]. reflexivity. }
  destruct (G (1/4) (17/8) ltac:(lra) ltac:(lra)) as (im1 & out1 & H1). destruct (G (3/4) (1/4) ltac:(lra) ltac:(lra)) as (im2 & out2 & H2).
  exists e, even_det, (spot_table mixed_spots me b), (spot_table [disc_spot (1/4) (17/8)] me b), (spot_table [disc_spot (3/4) (1/4)] me b), im1, im2, out1, out2.
  split; [reflexivity|]. split; [reflexivity|]. split; [apply flat_built; [lra|lia]|]. split; [cbn; lra|]. split; [cbn; lra|]. split; [apply spot_fresh|].
  split; [apply volumes_spot; apply Forall_cons; [|apply Forall_cons; [|apply Forall_nil]]; cbn; lra|]. split; [reflexivity|].
  split; [apply Forall2_cons; [intros c _ _ _; reflexivity|apply Forall2_nil]|]. split; [apply Forall2_cons; [intros c _ _ _; reflexivity|apply Forall2_nil]|].
  split; [exact H1|]. split; [exact H2|]. now apply mixed_err.
Qed.

(** ** Which rows have a disc *)
(** On a rectangular detector, every projected row with a finite Scherrer width has a disc. *)
Lemma pC101_width_suffices : forall z d pd frames out r x, built d -> rectangular (d_c0 d) (d_c1 d) (d_c2 d) -> fresh pd ->
  project z d pd frames = Ok out -> In r (pd_peaks out) -> has out r "scherrer_fwhm" x -> proper_disc out r.
Proof.
  intros z d pd frames out r x Hb Hr Hf Ho Hin Hx. destruct (pC49_incident_angle z d pd frames out r Hb Hr Hf Ho Hin) as (v & Hv & Ha).
  split; [eauto|]. split; [eauto|]. unfold has in Ha. unfold read. rewrite Ha.
  set (n := vneg (plane_normal (d_c0 d) (d_c1 d) (d_c2 d))) in *.
  replace (angle_between v n * (180 / PI) * (PI / 180)) with (angle_between v n) by (field; apply PI_neq0).
  destruct (out_row _ _ _ _ _ _ Hf Ho Hin) as (r0 & zd & yd & a & Hir & Hl & Hk & E & Er & Hc).
  rewrite (keepb_fresh z d frames r0 zd yd a) in Hk by auto. apply andb_true_iff in Hk as [Hk _].
  apply (hit_iff z d _ _ _ _ _ Hb Hr E) in Hk as (v' & o & p & Ev & _ & (Hh & _)).
  assert (v' = v).
  { apply (has_vec_ncol _ _ _ _ _ 13) in Hv; [|rewrite Hc; reflexivity|rewrite Hc; reflexivity|rewrite Hc; reflexivity|rewrite Er, app_length; lia].
    rewrite Er in Hv. unfold row_nvec in *. rewrite !ncol_app_l in Hv by lia. destruct v, v'. unfold nfin in *. cbn in *. congruence. }
  subst v'. assert (Dn : dot v n <> 0). { unfold n. intros C. apply Hh. revert C. generalize (plane_normal (d_c0 d) (d_c1 d) (d_c2 d)). intros q. vdes. vunf. lra. }
  assert (P : 0 < norm v * norm n).
  { pose proof (cauchy v n) as C. pose proof (Rabs_pos_lt _ Dn). lra. }
  unfold angle_between. rewrite cos_acos.
  - intros C. apply Dn. apply Rmult_eq_reg_r with (/ (norm v * norm n)); [rewrite Rmult_0_l; exact C|]. apply Rinv_neq_0_compat. lra.
  - pose proof (cauchy v n) as C. apply PWindow3.rabs_bounds. unfold Rdiv. rewrite Rabs_mult, (Rabs_pos_eq (/ _)) by (left; now apply Rinv_0_lt_compat).
    apply Rmult_le_reg_r with (norm v * norm n); [exact P|]. rewrite Rmult_assoc, Rinv_l by lra. lra.
Qed.
(** For the peaks of a sample: the disc exists when the volume of the element is positive and the scattering angle is
    below 180 degrees. *)
Lemma pC101_peaks_have_discs : forall z z' x p b m lo hi det pd p' d frames out r v t, diffract z x p b m lo hi det = (Ok pd, p') ->
  built d -> rectangular (d_c0 d) (d_c1 d) (d_c2 d) -> project z' d pd frames = Ok out -> In r (pd_peaks out) ->
  has out r "volumes" v -> 0 < v -> has out r "2theta" t -> - PI < t < PI -> proper_disc out r.
Proof.
  intros z z' x p b m lo hi det pd p' d frames out r v t D Hb Hr Ho Hin Hv V0 Ht T0.
  assert (Hf : fresh pd) by (apply (pC32_diffract_tables_fresh z x p b m lo hi det); now rewrite D).
  destruct (out_row _ _ _ _ _ _ Hf Ho Hin) as (r0 & zd & yd & a & Hir & Hl & Hk & E & Er & Hc).
  assert (FE : forall s j, index_of s column_names = Some j -> (j < 25)%nat -> field out r s = field pd r0 s).
  { intros s j Hs Hj. unfold field. rewrite Hc, (index_of_app _ _ _ _ Hs), (proj1 Hf), Hs, Er. apply nth_error_app1. lia. }
  destruct (pC10_peak_contents _ _ _ _ _ _ _ _ _ _ _ D Hir) as (e & i & ph & h & sf & t' & G0 & G & c & s & v' & A). decompose [and] A. clear A.
  assert (v' = v). { unfold has in *. rewrite (FE _ 21%nat) in Hv by (reflexivity || lia). congruence. } subst v'.
  unfold has in Ht. rewrite (FE _ 22%nat) in Ht by (reflexivity || lia).
  match goal with H : forall tth, _ -> _ = Some (scherrer _ _ _ _) |- _ => specialize (H t Ht) end.
  destruct (scherrer_fin z v t (b_wavelength b) V0 T0) as (Es & _). rewrite Es in *.
  eapply pC101_width_suffices; eauto. unfold has. rewrite (FE _ 23%nat) by (reflexivity || lia). eassumption.
Qed.
