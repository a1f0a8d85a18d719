(** * Nano rendering: the image depends on the free memory (C42). *)
From Verif Require Import Vec Spec MMotion MLaue MMesh MScattering MStrain MBeam MPolycrystal SPolycrystal MDetector SDetector.
From Verif Require Import MRender SRender SNano PLaue PScattering PBeam PDetector PDetector2 PDetector3 PDetector4 PRender PRender2 PRender2b PRenderEx PRender3 PKernel PKernel2 PKernel3 PMacro PNano.
From Coq Require Import Permutation FunctionalExtensionality.
Open Scope R_scope.
Local Notation len := List.length.

(** ** Kernels on whole pixels *)
Lemma Int_part_IZR n : Int_part (IZR n) = n.
Proof.
  destruct (base_Int_part (IZR n)) as [A B]. assert (IZR (Int_part (IZR n)) <= IZR n) by lra. apply le_IZR in H.
  assert (IZR n - 1 < IZR (Int_part (IZR n))) by lra. rewrite <- minus_IZR in H0. apply lt_IZR in H0. lia.
Qed.
Lemma entry_int h w f i j a b x : (i < h)%nat -> (j < w)%nat ->
  entry h w f i j (IZR a) (IZR b) (Fin x) = if ((a =? Z.of_nat i) && (b =? Z.of_nat j))%Z then Fin x else Fin 0.
Proof.
  intros Hi Hj. unfold entry, bilinear. cbv zeta. rewrite !Int_part_IZR. replace (IZR a - IZR a) with 0 by ring. replace (IZR b - IZR b) with 0 by ring. cbn [nmul].
  replace (x * ((1 - 0) * (1 - 0))) with x by ring. replace (x * ((1 - 0) * 0)) with 0 by ring. replace (x * (0 * (1 - 0))) with 0 by ring. replace (x * (0 * 0)) with 0 by ring.
  rewrite <- nsum_filter. rewrite (nsum_filter (hit f i j)). rewrite nsum_filter. cbn [map].
  rewrite !nsum_cons, nsum_nil. cbn [hit snd]. rewrite Z.eqb_refl. cbn [andb].
  assert (E : forall p q : bool, (if p then (if q then Fin 0 else Fin 0) else Fin 0) = Fin 0) by (intros [] []; reflexivity).
  rewrite !E, !nadd_0_r. rewrite (Z.eqb_sym a), (Z.eqb_sym b).
  destruct (Z.eqb_spec (Z.of_nat i) a) as [<-|], (Z.eqb_spec (Z.of_nat j) b) as [<-|]; cbn [andb]; try (destruct (_ && _)%bool; reflexivity).
  destruct (Z.leb_spec 0 (Z.of_nat i)); [|lia]. destruct (Z.ltb_spec (Z.of_nat i) (Z.of_nat h)); [|lia].
  destruct (Z.leb_spec 0 (Z.of_nat j)); [|lia]. destruct (Z.ltb_spec (Z.of_nat j) (Z.of_nat w)); [|lia]. reflexivity.
Qed.
(** The centre entry of a kernel placed on a whole pixel lands in that pixel. *)
Lemma pix_centre h w f i j k g : (i < h)%nat -> (j < w)%nat -> entries k g -> (0 < k_n k)%nat ->
  pix h w f i j (IZR (Z.of_nat i)) (IZR (Z.of_nat j)) k = Fin (g (k_n k / 2)%nat (k_n k / 2)%nat).
Proof.
  intros Hi Hj Hg Hn. rewrite pix_entries. set (c := (k_n k / 2)%nat). assert (Hc : (c < k_n k)%nat) by (apply Nat.div_lt; lia).
  unfold grid.
  rewrite (nsum_ext _ (fun ab => (fun a b => if Nat.eqb a c then (if Nat.eqb b c then Fin (g c c) else Fin 0) else Fin 0) (fst ab) (snd ab))).
  - rewrite (nsum_prod (fun a b => if Nat.eqb a c then (if Nat.eqb b c then Fin (g c c) else Fin 0) else Fin 0)).
    rewrite (nsum_ext _ (fun a => if Nat.eqb a c then Fin (g c c) else Fin 0)); [apply nsum_single; lia|].
    intros a _. destruct (Nat.eqb a c); [apply nsum_single; lia|apply nsum_zero; reflexivity].
  - intros [a b] Hab. apply in_prod_iff in Hab as [A B]. apply in_seq in A, B. cbn [fst snd].
    rewrite (Hg a b) by lia. rewrite !INR_IZR_INZ, <- !minus_IZR, <- !plus_IZR. rewrite entry_int by auto.
    destruct (Nat.eqb_spec a c) as [->|Na].
    + destruct (Nat.eqb_spec b c) as [->|Nb].
      * rewrite !Z.sub_diag, !Z.add_0_r, !Z.eqb_refl. reflexivity.
      * destruct (Z.eqb_spec (Z.of_nat j + (Z.of_nat b - Z.of_nat c)) (Z.of_nat j)); [lia|]. now rewrite andb_false_r.
    + destruct (Z.eqb_spec (Z.of_nat i + (Z.of_nat a - Z.of_nat c)) (Z.of_nat i)); [lia|]. reflexivity.
Qed.
(** ** The sampled disc *)
Lemma profile_val z j1 x s r : 0 < x -> s <= x -> exists v, airy_profile z j1 (Fin x) s r = Fin v /\ 0 <= v.
Proof.
  intros Hx Hs. unfold airy_profile. cbv zeta. cbn [nlt]. replace (Rltb x s) with false by (symmetry; apply Rltb_false; lra).
  destruct (Req_EM_T r 0); [|rewrite ndiv_fin by lra]; (destruct (Rlt_dec _ _); eexists; split; [reflexivity| |reflexivity|]; [lra|apply pow2_ge_0]).
Qed.
Definition prof (j1 : R -> R) (x s r : R) : R := fval (airy_profile false j1 (Fin x) s r).
Lemma profile_prof z j1 x s r : 0 < x -> s <= x -> airy_profile z j1 (Fin x) s r = Fin (prof j1 x s r) /\ 0 <= prof j1 x s r.
Proof.
  intros Hx Hs. assert (E : airy_profile z j1 (Fin x) s r = airy_profile false j1 (Fin x) s r).
  { unfold airy_profile. cbv zeta. destruct (Req_EM_T r 0); auto. now rewrite !ndiv_fin by lra. }
  rewrite E. unfold prof. destruct (profile_val false j1 x s r Hx Hs) as (v & -> & H). auto.
Qed.
Lemma prof_0 j1 x s : s <= x -> prof j1 x s 0 = 1.
Proof.
  intros Hs. unfold prof, airy_profile. cbv zeta. destruct (Req_EM_T 0 0); [|lra]. cbn [nlt].
  replace (Rltb x s) with false by (symmetry; apply Rltb_false; lra).
  destruct (Rlt_dec (Rabs (/10^10)) (/10^8)) as [_|N]; [reflexivity|]. exfalso. apply N. rewrite Rabs_right by (left; apply Rinv_0_lt_compat; lra).
  apply Rinv_lt_contravar; lra.
Qed.
Lemma prof_pos j1 x s r : 0 < x -> s <= x -> 1 <= r -> x <= 3 -> j1 (38317/10000 * r / x) <> 0 -> 0 < prof j1 x s r.
Proof.
  intros Hx Hs Hr Hx3 Hj. unfold prof, airy_profile. cbv zeta. destruct (Req_EM_T r 0); [lra|]. cbn [nlt]. rewrite ndiv_fin by lra.
  replace (Rltb x s) with false by (symmetry; apply Rltb_false; lra). set (y := 38317/10000 * r / x) in *.
  destruct (Rlt_dec _ _); cbn [fval]; [lra|].
  assert (0 < y) by (unfold y; apply Rdiv_lt_0_compat; lra).
  assert (2 * j1 y / y <> 0). { intros C. apply Rmult_integral in C as [C|C]; [apply Hj; lra|]. apply Rinv_neq_0_compat in C; lra. }
  rewrite <- Rsqr_pow2. now apply Rsqr_pos_lt.
Qed.
(** Sum of the disc over the pixels at most n rows and columns from its centre. *)
Definition disc_sum (j1 : R -> R) (x s : R) (n : Z) : R :=
  sum_list (map (fun ij => prof j1 x s (sqrt (IZR (fst ij)^2 + IZR (snd ij)^2))) (grid (zrange (- n) (Z.to_nat (2 * n + 1))))).
Lemma grid_entries z j1 d n x : (0 <= n)%Z -> 0 < x -> d_sigma d <= x ->
  let k := airy_grid z j1 d (IZR n) (Fin x) in
  k_n k = Z.to_nat (2 * n + 1) /\
  entries k (fun a b => prof j1 x (d_sigma d) (sqrt (IZR (- n + Z.of_nat a)^2 + IZR (- n + Z.of_nat b)^2))) /\
  ksum k = Fin (disc_sum j1 x (d_sigma d) n).
Proof.
  intros Hn Hx Hs. cbv zeta.
  assert (EN : k_n (airy_grid z j1 d (IZR n) (Fin x)) = Z.to_nat (2 * n + 1)).
  { unfold airy_grid. cbn [k_n]. f_equal. apply ceil_eq. rewrite plus_IZR, mult_IZR. lra. }
  assert (EE : entries (airy_grid z j1 d (IZR n) (Fin x)) (fun a b => prof j1 x (d_sigma d) (sqrt (IZR (- n + Z.of_nat a)^2 + IZR (- n + Z.of_nat b)^2)))).
  { intros a b _ _. unfold airy_grid. cbn [k_at]. rewrite (proj1 (profile_prof z j1 x (d_sigma d) _ Hx Hs)). rewrite !plus_IZR, !opp_IZR, !INR_IZR_INZ. reflexivity. }
  split; [exact EN|]. split; [exact EE|]. rewrite (ksum_entries _ _ EE), EN. f_equal. unfold disc_sum, grid, entry_total, zrange.
  set (N := Z.to_nat (2 * n + 1)).
  rewrite (sum_list_prod (fun i j => prof j1 x (d_sigma d) (sqrt (IZR i^2 + IZR j^2)))). rewrite map_map. apply sum_list_ext. intros a _. now rewrite map_map.
Qed.
Lemma NoDup_app' {A} (l m : list A) : NoDup l -> NoDup m -> (forall x, In x l -> In x m -> False) -> NoDup (l ++ m).
Proof.
  intros Hl Hm H. induction Hl as [|x l Hx Hl IH]; cbn [app]; auto. constructor.
  - intros C. apply in_app_or in C as [C|C]; [contradiction|]. apply (H x); auto. now left.
  - apply IH. intros y Hy. apply H. now right.
Qed.
Lemma NoDup_prod {A B} (l : list A) (m : list B) : NoDup l -> NoDup m -> NoDup (list_prod l m).
Proof.
  intros Hl Hm. induction Hl as [|x l Hx _ IH]; cbn [list_prod]; [constructor|]. apply NoDup_app'; auto.
  - apply FinFun.Injective_map_NoDup; auto. intros a b H; now inversion H.
  - intros [a b] Ha Hb. apply in_map_iff in Ha as (y & E & _). inversion E; subst. apply in_prod_iff in Hb as [Hb _]. contradiction.
Qed.
Lemma disc_sum_grows j1 x s n n' q : 0 < x -> s <= x -> (0 <= n)%Z -> (n < q <= n')%Z -> 
  disc_sum j1 x s n + prof j1 x s (IZR q) <= disc_sum j1 x s n' /\ 1 <= disc_sum j1 x s n.
Proof.
  intros Hx Hs Hn Hq. set (P := fun ij : Z * Z => prof j1 x s (sqrt (IZR (fst ij)^2 + IZR (snd ij)^2))).
  assert (PP : forall ij, 0 <= P ij) by (intros; apply (profile_prof false); auto).
  assert (ZR : forall m i, (0 <= m)%Z -> In i (zrange (- m) (Z.to_nat (2 * m + 1))) <-> (- m <= i <= m)%Z).
  { intros m i Hm. unfold zrange. rewrite in_map_iff. split.
    - intros (k & <- & Hk). apply in_seq in Hk. lia.
    - intros H. exists (Z.to_nat (i + m)). split; [lia|]. apply in_seq. lia. }
  split.
  - apply Rle_trans with (sum_list (map P ((q, 0%Z) :: grid (zrange (- n) (Z.to_nat (2 * n + 1)))))).
    + cbn [map]. rewrite sum_list_cons. unfold disc_sum. fold P. right. rewrite Rplus_comm. f_equal. unfold P. cbn [fst snd]. f_equal.
      replace (IZR q ^ 2 + 0 ^ 2) with (IZR q ^ 2) by ring. rewrite sqrt_pow2; auto. apply IZR_le. lia.
    + apply sum_incl_le; auto.
      * constructor; [|apply NoDup_prod; apply NoDup_zrange]. intros C. apply in_prod_iff in C as [C _]. apply ZR in C; lia.
      * intros [i j] [E|H]; [inversion E; subst|apply in_prod_iff in H as [H1 H2]; apply ZR in H1, H2; try lia]; apply in_prod_iff; split; apply ZR; lia.
  - apply Rle_trans with (sum_list (map P [(0%Z, 0%Z)])).
    + cbn [map]. rewrite sum_list_cons, sum_list_nil. unfold P. cbn [fst snd]. replace (0 ^ 2 + 0 ^ 2) with 0 by ring. rewrite sqrt_0, prof_0 by auto. lra.
    + apply sum_incl_le; auto; [repeat constructor; intros []|]. intros p [<-|[]]. apply in_prod_iff. split; apply ZR; lia.
Qed.
(** The centre entry of the cropped normalised kernel. *)
Lemma airy_centre z j1 d psf n x : (1 <= n)%Z -> 1/2 <= x -> d_sigma d <= x ->
  let k := fst (airy_kernel z j1 d psf (IZR n) (Fin x)) in
  exists g, entries k g /\ (0 < k_n k)%nat /\ g (k_n k / 2)%nat (k_n k / 2)%nat = / disc_sum j1 x (d_sigma d) n.
Proof.
  intros Hn Hx Hs. cbv zeta. unfold airy_kernel. cbn [nlt fst]. replace (Rltb x (1/2)) with false by (symmetry; apply Rltb_false; lra).
  destruct (grid_entries z j1 d n x ltac:(lia) ltac:(lra) Hs) as (EN & EE & ES). set (k0 := airy_grid z j1 d (IZR n) (Fin x)) in *. clearbody k0.
  set (g0 := fun a b : nat => _) in EE. set (S := disc_sum j1 x (d_sigma d) n) in *.
  assert (HS : 1 <= S) by (unfold S; apply (disc_sum_grows j1 x (d_sigma d) n (n + 1) (n + 1)); try lra; lia).
  assert (E1 : entries (knorm z k0) (fun a b => g0 a b / S)).
  { intros a b Ha Hb. cbn [knorm k_at k_n] in *. rewrite ES, (EE a b Ha Hb). apply ndiv_fin. lra. }
  set (k := knorm z k0) in *. assert (Nk : k_n k = Z.to_nat (2 * n + 1)) by exact EN. clearbody k.
  pose proof (crop_radius_range (d_threshold d) k ltac:(lia)) as R. set (c := crop_radius (d_threshold d) k) in *. clearbody c.
  assert (H2 : (k_n k / 2 = Z.to_nat n)%nat) by (rewrite Nk; symmetry; apply Nat.div_unique with 1%nat; lia).
  unfold crop. rewrite window_eq by lia. cbn [fst snd k_n]. rewrite H2 in *. rewrite Nk.
  replace (Nat.min (Z.to_nat n + c + 1) (Z.to_nat (2 * n + 1)) - (Z.to_nat n - c))%nat with (2 * c + 1)%nat by lia.
  assert (Hc : ((2 * c + 1) / 2 = c)%nat) by (symmetry; apply Nat.div_unique with 1%nat; lia).
  exists (fun a b => g0 (Z.to_nat n - c + a)%nat (Z.to_nat n - c + b)%nat / S). split; [|split; [lia|]].
  - intros a b Ha Hb. cbn [k_n k_at] in *. apply E1; lia.
  - rewrite Hc. replace (Z.to_nat n - c + c)%nat with (Z.to_nat n) by lia. unfold g0. replace (- n + Z.of_nat (Z.to_nat n))%Z with 0%Z by lia.
    replace (0 ^ 2 + 0 ^ 2) with 0 by ring. rewrite sqrt_0, prof_0 by auto. unfold Rdiv. ring.
Qed.
(** ** The counterexample *)
Definition nano_det : detector := flat 10 1 41 1 (1/10) 0.
Definition disc_spot (t x : R) : spot := Spot 20 20 t 1 1 (x / (11861/1000)).
Definition disc_row (t x : R) : list num := spot_out 2 (disc_spot t x).
Lemma disc_first_zero z t x : first_zero z nano_det (disc_row t x) = Fin x.
Proof.
  unfold first_zero, airy_dist. change (ncol (disc_row t x) 23) with (Fin (x / (11861/1000))). change (ncol (disc_row t x) 27) with (Fin 0).
  change (d_c0 nano_det) with (V3 10 0 0). change (d_pz nano_det) with 1. rewrite (norm_sqrt_eq (V3 10 0 0) 10) by (vunf; lra).
  cbn [nmul ncos]. rewrite Rmult_0_l, cos_0. rewrite ndiv_fin by lra. cbn [nmul]. rewrite ndiv_fin by lra. cbn [nmul]. f_equal. field.
Qed.
Lemma disc_airy_radius n x : (2 <= n <= 32)%Z -> x = IZR n -> airy_radius nano_det (Fin x) = Ok (IZR (4 * n)).
Proof.
  intros Hn ->. assert (B : 2 <= IZR n <= 32) by (split; apply IZR_le; lia). unfold airy_radius. rewrite Rmax_left by lra. change (d_sigma nano_det) with 1. change (d_threshold nano_det) with (1/10).
  cbn [airy_radius_loop]. destruct (Rle_dec (4 * IZR n) 128); [|lra].
  assert (L : nlt (gexp 1 ((4 * IZR n)^2)) (Fin (1/10/2)) = true).
  { unfold gexp. destruct (Req_EM_T 1 0); [lra|]. cbn [nlt]. apply Rltb_true.
    apply Rle_lt_trans with (exp (Ropp 32)).
    - assert (Q : - (4 * IZR n)^2 / (2 * 1^2) <= Ropp 32) by nra. destruct Q as [Q|Q]; [left; now apply exp_increasing|rewrite Q; lra].
    - rewrite exp_Ropp. replace (1/10/2) with (/20) by lra. pose proof (exp_ineq1_le 32). apply Rinv_lt_contravar; [apply Rmult_lt_0_compat|]; lra. }
  rewrite L. destruct (Rlt_dec 128 (4 * IZR n)); [lra|]. now rewrite mult_IZR.
Qed.
Lemma disc_memory z t n x : (2 <= n)%Z -> x = IZR n -> airy_memory z nano_det (disc_row t x) = Fin ((2 * IZR (4 * n) + 1)^2 * 96).
Proof.
  intros Hn ->. assert (2 <= IZR n) by (apply IZR_le; lia). unfold airy_memory. rewrite disc_first_zero. change (d_sigma nano_det) with 1. cbv zeta. cbn [nmul nmax nlt].
  replace (Rltb (4 * IZR n) (3 * 1)) with false by (symmetry; apply Rltb_false; lra). cbn [nceil]. rewrite (ceil_eq (4 * IZR n) (4 * n)) by (rewrite mult_IZR; lra).
  unfold nadd. cbn [nmul]. f_equal. ring.
Qed.
Lemma nano_psf : exists psf, psf_kernel nano_det = Ok psf /\ k_n psf = 1%nat /\ k_at psf 0 0 = Fin 1.
Proof.
  destruct (pC46_kernel nano_det) as (k & g & Hk & He & Hn & _ & Ht & _); [cbn; lra|cbn; lia|].
  assert (E : psf_radius nano_det = 0%Z) by reflexivity. rewrite E in Hn. change (Z.to_nat (2 * 0 + 1)) with 1%nat in Hn.
  exists k. split; auto. split; auto. rewrite (He 0%nat 0%nat) by lia. f_equal. rewrite Hn in Ht. unfold entry_total in Ht. cbn [seq map] in Ht.
  rewrite !sum_list_cons, !sum_list_nil in Ht. lra.
Qed.
Lemma conv_one k h w f i j x : k_n k = 1%nat -> k_at k 0 0 = Fin 1 -> (i < h)%nat -> (j < w)%nat -> f i j = Fin x -> conv2 k h w f i j = Fin x.
Proof.
  intros Hn Hk Hi Hj Hx. unfold conv2. rewrite Hn. change (grid (seq 0 1)) with [(0%nat, 0%nat)]. cbn [map fst snd]. rewrite nsum_cons, nsum_nil, nadd_0_r, Hk.
  change (Z.of_nat (1 / 2)) with 0%Z. change (Z.of_nat 0) with 0%Z. rewrite !Z.add_0_r, !Z.sub_0_r. unfold padded.
  destruct (Z.leb_spec 0 (Z.of_nat i)); [|lia]. destruct (Z.ltb_spec (Z.of_nat i) (Z.of_nat h)); [|lia].
  destruct (Z.leb_spec 0 (Z.of_nat j)); [|lia]. destruct (Z.ltb_spec (Z.of_nat j) (Z.of_nat w)); [|lia]. cbn [andb]. rewrite !Nat2Z.id, Hx. cbn [nmul]. f_equal. ring.
Qed.
Lemma sort_two argsort a b : permutes argsort -> descending argsort -> b < a -> argsort [Fin a; Fin b] = [0; 1]%nat.
Proof.
  intros Hp Hd Hab. specialize (Hp [Fin a; Fin b]). specialize (Hd [a; b] 0%nat 1%nat ltac:(cbn; lia)). cbn [map List.length seq] in *.
  apply Permutation_sym, Permutation_length_2_inv in Hp as [E|E]; auto. rewrite E in Hd. cbn in Hd. lra.
Qed.
Definition disc_table (me : mesh) (b : beam) : peaks_dict := spot_table [disc_spot (1/4) 3; disc_spot (3/4) 2] me b.
(** Pixel (1, 20, 20) of the image, given the batches and the radius used for the second peak. *)
Lemma disc_pixel z j1 psf bs n rad : k_n psf = 1%nat -> k_at psf 0 0 = Fin 1 -> psf_kernel nano_det = Ok psf ->
  List.concat bs = [disc_row (1/4) 3; disc_row (3/4) 2] -> (1 <= n)%Z -> rad (disc_row (3/4) 2) = IZR n ->
  Forall (fun b => exists m, airy_kernels z j1 nano_det psf b = Ok (map (fun r => pad_to m (fst (airy_kernel z j1 nano_det psf (rad r) (first_zero z nano_det r)))) b)) bs ->
  exists im, bind (airy_loop z j1 nano_det psf 2 (zeros3 2 41 41) bs) (fun im => Ok (conv3 psf im)) = Ok im /\ f_n im = 2%nat /\ f_h im = 41%nat /\ f_w im = 41%nat /\
    f_at im 1 20 20 = Fin (/ disc_sum j1 2 1 n).
Proof.
  intros Hn Hk Hpsf Hc Hn1 Hrad HB.
  rewrite (loop_adds _ _ _ _ _ (fun r => fst (airy_kernel z j1 nano_det psf (rad r) (first_zero z nano_det r))) bs HB); try reflexivity.
  2: { rewrite Hc. apply Forall_cons; [|apply Forall_cons; [|apply Forall_nil]]; exists (1 * 1); reflexivity. }
  cbn [bind]. eexists. split; [reflexivity|]. split; [reflexivity|]. split; [reflexivity|]. split; [reflexivity|].
  unfold conv3. cbn [f_at f_h f_w]. change (d_nz nano_det) with 41%nat. change (d_ny nano_det) with 41%nat.
  apply conv_one; auto; try lia. change (Nat.ltb 1 2) with true. cbv iota. cbn [zeros3 f_at]. rewrite nadd_0_l, Hc. cbn [map]. rewrite !nsum_cons, nsum_nil.
  unfold contrib. change (fcol (disc_row (1/4) 3) 28) with (IZR (frame_of 2 (Fin (1/4)))). change (fcol (disc_row (3/4) 2) 28) with (IZR (frame_of 2 (Fin (3/4)))).
  rewrite frame_quarter, frame_three_quarter. cbn [INR].
  replace (Reqb 0 1) with false by (symmetry; apply Reqb_false; lra). replace (Reqb 1 1) with true by (symmetry; now apply Reqb_true).
  rewrite nadd_0_l, nadd_0_r. change (d_nz nano_det) with 41%nat. change (d_ny nano_det) with 41%nat.
  change (peak_intensity (disc_row (3/4) 2)) with (Fin (1 * 1)). rewrite Hrad, disc_first_zero.
  destruct (airy_centre z j1 nano_det psf n 2 Hn1 ltac:(lra) ltac:(cbn; lra)) as (g & He & Hpos & Hg). set (k := fst _) in *. clearbody k.
  replace (pos_z nano_det (disc_row (3/4) 2)) with (IZR (Z.of_nat 20)) by (change (pos_z _ _) with (20 / 1); change (Z.of_nat 20) with 20%Z; lra).
  replace (pos_y nano_det (disc_row (3/4) 2)) with (IZR (Z.of_nat 20)) by (change (pos_y _ _) with (20 / 1); change (Z.of_nat 20) with 20%Z; lra).
  rewrite (pix_centre 41 41 1 20 20 (kscale (Fin (1*1)) k) (fun a b => g a b * (1 * 1))); try lia; auto.
  - cbn [kscale k_n]. rewrite Hg. f_equal. change (d_sigma nano_det) with 1. ring.
  - intros a b Ha Hb. cbn [kscale k_n k_at] in *. rewrite He by auto. reflexivity.
Qed.
(** A machine without free memory and one with 1 GB render different images of the same
    table: the second peak is normalised over 17 x 17 pixels on the first, over 25 x 25
    pixels on the second.  This holds for every function j1 that does not vanish at one
    point of the outer rings, and every correct sorting routine. *)
Lemma pC42_memory_changes_image_refuted : forall j1 argsort, j1 (38317/10000 * 9 / 2) <> 0 -> permutes argsort -> descending argsort ->
  exists d pd e im im' out f i j, built d /\ fresh pd /\ volumes_ok pd /\ re_j1 e = j1 /\ re_argsort e = argsort /\
    render (with_memory 0 e) d pd 2 "nano" None 1 = Ok (im, out) /\
    render (with_memory 1 e) d pd 2 "nano" None 1 = Ok (im', out) /\
    in_image im f i j /\ in_image im' f i j /\ f_at im f i j <> f_at im' f i j.
Proof.
  intros j1 argsort Hj Hp Hd. destruct ex_world as (me & b & _). destruct nano_psf as (psf & Hpsf & Hn1 & H1).
  set (e := ex_env 0 j1 argsort).
  assert (HP : forall z, project z nano_det (disc_table me b) 2 = Ok (projected_table 2 [disc_spot (1/4) 3; disc_spot (3/4) 2] me b)).
  { intros z. apply flat_project; try lra. apply Forall_cons; [|apply Forall_cons; [|apply Forall_nil]]; unfold good_spot; cbn [disc_spot s_y s_h s_sf]; change (IZR 41) with 41; repeat split; lra. }
  set (rA := disc_row (1/4) 3). set (rB := disc_row (3/4) 2).
  pose proof (disc_memory false (1/4) 3 3 ltac:(lia) eq_refl) as MA. pose proof (disc_memory false (3/4) 2 2 ltac:(lia) eq_refl) as MB.
  assert (RN : forall free, render (with_memory free e) nano_det (disc_table me b) 2 "nano" None 1 =
    bind (match airy_batches (airy_memory false nano_det) (free * 1024^3) [rA; rB] 2 with None => Err RuntimeError | Some bs =>
       bind (airy_loop false j1 nano_det psf 2 (zeros3 2 41 41) bs) (fun im => Ok (conv3 psf im)) end) (fun im => Ok (im, projected_table 2 [disc_spot (1/4) 3; disc_spot (3/4) 2] me b))).
  { intros free. unfold render. cbv zeta. change (2 <? 1)%Z with false. cbv iota. rewrite HP. cbn [bind String.eqb Ascii.eqb Bool.eqb].
    unfold nano_method, render_airy. cbn [projected_table pd_peaks map with_memory e ex_env re_z re_j1 re_argsort re_free_nano].
    rewrite Hpsf. cbn [bind]. fold (disc_row (1/4) 3). fold (disc_row (3/4) 2). rewrite MA, MB. rewrite (sort_two argsort _ _ Hp Hd) by (rewrite !mult_IZR; lra).
    unfold gather. cbn [traverse nth_error bind List.length]. reflexivity. }
  assert (S8 : airy_radius nano_det (Fin 2) = Ok (IZR 8)) by (apply (disc_airy_radius 2); [lia|reflexivity]).
  assert (S12 : airy_radius nano_det (Fin 3) = Ok (IZR 12)) by (apply (disc_airy_radius 3); [lia|reflexivity]).
  (* one peak per batch *)
  destruct (disc_pixel false j1 psf [[rA]; [rB]] 8 (fun r => match ncol r 23 with Fin x => if Req_EM_T x (2 / (11861/1000)) then IZR 8 else IZR 12 | _ => 0 end)) as (im & Him & I1 & I2 & I3 & Iv); auto; try lia.
  { change (ncol (disc_row (3/4) 2) 23) with (Fin (2 / (11861/1000))). cbv iota. destruct (Req_EM_T _ _); [reflexivity|contradiction]. }
  { apply Forall_cons; [|apply Forall_cons; [|apply Forall_nil]].
    - destruct (kernels_odd false j1 nano_det psf [rA] (IZR 12)) as (m & Hm); [discriminate|unfold rA; cbn [map nmax_list fold_left]; rewrite disc_first_zero; exact S12|now rewrite Hn1|now apply odd_size|].
      exists m. rewrite Hm. cbn [map]. change (ncol rA 23) with (Fin (3 / (11861/1000))). cbv iota. destruct (Req_EM_T _ _); [lra|reflexivity].
    - destruct (kernels_odd false j1 nano_det psf [rB] (IZR 8)) as (m & Hm); [discriminate|unfold rB; cbn [map nmax_list fold_left]; rewrite disc_first_zero; exact S8|now rewrite Hn1|now apply odd_size|].
      exists m. rewrite Hm. cbn [map]. change (ncol rB 23) with (Fin (2 / (11861/1000))). cbv iota. destruct (Req_EM_T _ _); [reflexivity|contradiction]. }
  (* both in one batch *)
  destruct (disc_pixel false j1 psf [[rA; rB]] 12 (fun _ => IZR 12)) as (im' & Him' & I1' & I2' & I3' & Iv'); auto; try lia.
  { apply Forall_cons; [|apply Forall_nil].
    apply kernels_odd; [discriminate| |now rewrite Hn1|now apply odd_size]. unfold rA, rB. cbn [map nmax_list fold_left]. rewrite !disc_first_zero. cbn [nmax nlt].
    replace (Rltb 3 2) with false by (symmetry; apply Rltb_false; lra). exact S12. }
  exists nano_det, (disc_table me b), e, im, im', (projected_table 2 [disc_spot (1/4) 3; disc_spot (3/4) 2] me b), 1%nat, 20%nat, 20%nat.
  split; [apply flat_built; [lra|lia]|]. split; [apply spot_fresh|]. split; [apply volumes_spot; apply Forall_cons; [|apply Forall_cons; [|apply Forall_nil]]; cbn; lra|].
  split; [reflexivity|]. split; [reflexivity|].
  split. { rewrite RN, Rmult_0_l. change 2%nat with (List.length [rA; rB]) at 1. rewrite pC41_no_memory. cbn [map]. rewrite Him. reflexivity. }
  split.
  { rewrite RN. assert (FC : airy_batches (airy_memory false nano_det) (1 * 1024^3) [rA; rB] 2 = Some [[rA; rB]]).
    { cbn [airy_batches]. assert (F : fit_count (1 * 1024^3) (map (airy_memory false nano_det) [rA; rB]) = 2%nat).
      { unfold fit_count, rA, rB. cbn [map]. rewrite MA, MB. cbn [cumsum]. unfold nadd. cbn [filter nle]. 
        replace (Rleb (0 + (2 * IZR (4 * 3) + 1) ^ 2 * 96) (1 * 1024 ^ 3)) with true by (symmetry; apply Rleb_true; rewrite !mult_IZR; lra).
        replace (Rleb (0 + (2 * IZR (4 * 3) + 1) ^ 2 * 96 + (2 * IZR (4 * 2) + 1) ^ 2 * 96) (1 * 1024 ^ 3)) with true by (symmetry; apply Rleb_true; rewrite !mult_IZR; lra).
        reflexivity. }
      rewrite F. cbn [firstn skipn option_map]. reflexivity. }
    rewrite FC, Him'. reflexivity. }
  unfold in_image. rewrite I1, I2, I3, I1', I2', I3'. split; [lia|]. split; [lia|]. rewrite Iv, Iv'. intros C. inversion C as [C'].
  destruct (disc_sum_grows j1 2 1 8 12 9) as [G1 G2]; try lra; try lia.
  assert (0 < prof j1 2 1 9) by (apply prof_pos; try lra; exact Hj).
  apply (f_equal Rinv) in C'. rewrite !Rinv_inv in C'. lra.
Qed.
(** A correct sorting routine. *)
Fixpoint insert_desc (key : nat -> R) (i : nat) (l : list nat) : list nat :=
  match l with [] => [i] | x :: xs => if Rle_dec (key x) (key i) then i :: l else x :: insert_desc key i xs end.
Definition sort_desc (l : list num) : list nat :=
  fold_right (insert_desc (fun i => fval (nth i l NaN))) [] (seq 0 (List.length l)).
Lemma insert_perm key i l : Permutation (insert_desc key i l) (i :: l).
Proof. induction l; cbn [insert_desc]; auto. destruct (Rle_dec _ _); auto. rewrite IHl. apply perm_swap. Qed.
Lemma sort_perm key l : Permutation (fold_right (insert_desc key) [] l) l.
Proof. induction l; cbn; auto. rewrite insert_perm. now constructor. Qed.
Lemma sort_permutes : permutes sort_desc.
Proof. intros l. apply sort_perm. Qed.
Lemma insert_sorted key i l : (forall a b, (a < b < len l)%nat -> key (nth b l 0%nat) <= key (nth a l 0%nat)) ->
  forall a b, (a < b < S (len l))%nat -> key (nth b (insert_desc key i l) 0%nat) <= key (nth a (insert_desc key i l) 0%nat).
Proof.
  induction l as [|x l IH]; intros H a b Hab; cbn [insert_desc].
  - cbn in Hab. lia.
  - destruct (Rle_dec (key x) (key i)) as [L|L].
    + destruct b; [lia|]. destruct a; cbn [nth].
      * destruct b; cbn [nth]; auto. eapply Rle_trans; [|exact L]. apply (H 0%nat (S b)). cbn in *. lia.
      * apply (H a b). cbn in *. lia.
    + destruct b; [lia|]. destruct a; cbn [nth].
      * assert (Hin : In (nth b (insert_desc key i l) 0%nat) (i :: l)).
        { apply (Permutation_in _ (insert_perm key i l)). apply nth_In. rewrite (Permutation_length (insert_perm key i l)). cbn in *. lia. }
        destruct Hin as [<-|Hin]; [lra|]. apply (In_nth _ _ 0%nat) in Hin as (m & Hm & E). rewrite <- E. apply (H 0%nat (S m)). cbn. lia.
      * apply IH; [|cbn in *; lia]. intros p q Hpq. apply (H (S p) (S q)). cbn. lia.
Qed.
Lemma sort_descending : descending sort_desc.
Proof.
  intros l i j Hij. unfold sort_desc. set (key := fun i => fval (nth i (map Fin l) NaN)).
  assert (K : forall m, (m < len l)%nat -> nth m l 0 = key m).
  { intros m Hm. unfold key. rewrite (nth_indep _ NaN (Fin 0)) by (rewrite map_length; lia). now rewrite map_nth. }
  rewrite map_length. set (is' := seq 0 (len l)).
  assert (B : forall m, (m < len l)%nat -> (nth m (fold_right (insert_desc key) [] is') 0 < len l)%nat).
  { intros m Hm. assert (In (nth m (fold_right (insert_desc key) [] is') 0%nat) is').
    { apply (Permutation_in _ (sort_perm key is')). apply nth_In. rewrite (Permutation_length (sort_perm key is')). unfold is'. now rewrite seq_length. }
    unfold is' in H at 2. apply in_seq in H. lia. }
  rewrite !K by (apply B; lia).
  assert (G : forall is', forall a b, (a < b < len is')%nat -> key (nth b (fold_right (insert_desc key) [] is') 0%nat) <= key (nth a (fold_right (insert_desc key) [] is') 0%nat)).
  { clear. induction is' as [|x is' IH]; intros a b Hab; [cbn in Hab; lia|]. cbn [fold_right]. apply insert_sorted.
    - intros p q Hpq. apply IH. rewrite (Permutation_length (sort_perm key is')) in Hpq. exact Hpq.
    - rewrite (Permutation_length (sort_perm key is')). exact Hab. }
  apply G. unfold is'. rewrite seq_length. exact Hij.
Qed.
(** The hypotheses of the refutation can be met, and two machines render a table with
    discs of the same size (2 pixels, one per frame). *)
Lemma xC42_sorting_exists : exists j1 argsort, j1 (38317/10000 * 9 / 2) <> 0 /\ permutes argsort /\ descending argsort.
Proof. exists (fun _ => 1), sort_desc. split; [lra|]. split; [apply sort_permutes|apply sort_descending]. Qed.
Lemma xC42_equal_sizes : exists e d pd im out, built d /\ fresh pd /\ volumes_ok pd /\ 0 < d_pz d /\ permutes (re_argsort e) /\
  render e d pd 2 "nano" None 1 = Ok (im, out) /\ List.length (pd_peaks out) = 2%nat /\
  (forall r, In r (pd_peaks out) -> proper_disc out r /\ disc_radius d out r = 2).
Proof.
  destruct ex_world as (me & b & _). set (e := ex_env 0 (fun _ => 1) sort_desc). destruct nano_psf as (psf & Hpsf & _).
  set (ss := [disc_spot (1/4) 2; disc_spot (3/4) 2]). set (out := projected_table 2 ss me b).
  assert (Ho : project false nano_det (spot_table ss me b) 2 = Ok out).
  { apply flat_project; try lra. apply Forall_cons; [|apply Forall_cons; [|apply Forall_nil]]; unfold good_spot; cbn [disc_spot s_y s_h s_sf]; change (IZR 41) with 41; repeat split; lra. }
  assert (Hv : volumes_ok (spot_table ss me b)) by (apply volumes_spot; apply Forall_cons; [|apply Forall_cons; [|apply Forall_nil]]; cbn; lra).
  assert (Hr : forall r, In r (pd_peaks out) -> proper_disc out r /\ disc_radius nano_det out r = 2).
  { intros r Hr. assert (exists t, r = disc_row t 2) as (t & ->) by (cbn in Hr; destruct Hr as [<-|[<-|[]]]; eexists; reflexivity).
    assert (E1 : read out (disc_row t 2) "incident_angle" = 0) by reflexivity.
    assert (E2 : read out (disc_row t 2) "scherrer_fwhm" = 2 / (11861/1000)) by reflexivity.
    split; [split; [|split]|].
    - eexists. reflexivity.
    - eexists. reflexivity.
    - rewrite E1, Rmult_0_l, cos_0. lra.
    - unfold disc_radius. rewrite E1, E2, Rmult_0_l, cos_0. change (d_c0 nano_det) with (V3 10 0 0). change (d_pz nano_det) with 1. rewrite (norm_sqrt_eq (V3 10 0 0) 10) by (vunf; lra). field. }
  destruct (nano_image e nano_det (spot_table ss me b) 2 out psf (spot_fresh _ _ _) Hv) as (R & _ & Him); auto.
  { apply flat_built; [lra|lia]. }
  { cbn; lra. } { lia. } { discriminate. } { intros r Hin. now apply Hr. } { left. intros r Hin. rewrite (proj2 (Hr r Hin)). lra. }
  specialize (Him e eq_refl eq_refl sort_permutes).
  eexists e, nano_det, (spot_table ss me b), _, out. split; [apply flat_built; [lra|lia]|]. split; [apply spot_fresh|]. split; [exact Hv|]. split; [cbn; lra|]. split; [apply sort_permutes|].
  split; [|split; [reflexivity|exact Hr]].
  unfold render. cbv zeta. change (2 <? 1)%Z with false. cbv iota. change (re_z e) with false. rewrite Ho. cbn [bind String.eqb Ascii.eqb Bool.eqb]. rewrite Him. reflexivity.
Qed.
