(** * Nano rendering: energy of peaks far from the border (C74). *)
From Verif Require Import Vec Spec MMotion MLaue MMesh MScattering MStrain MBeam MPolycrystal SPolycrystal MDetector SDetector.
From Verif Require Import MRender SRender SNano PLaue PScattering PBeam PDetector PDetector2 PDetector3 PDetector4 PRender PRender2 PRender2b PRenderEx PRender3 PKernel PKernel2 PKernel3 PMacro PNano PNanoEx PNano2.
From Coq Require Import Permutation FunctionalExtensionality.
Open Scope R_scope.
Local Notation len := List.length.

Lemma enclosed_full n g : enclosed n g (n / 2) = entry_total n g.
Proof.
  unfold enclosed, entry_total. pose proof (Nat.div_mod_eq n 2) as D. pose proof (Nat.mod_upper_bound n 2 ltac:(lia)) as U. set (h := (n / 2)%nat) in *.
  assert (N : forall a, (a < n)%nat -> near n h a = true). { intros a Ha. unfold near. fold h. apply Z.leb_le. lia. }
  apply sum_list_ext. intros a Ha. apply in_seq in Ha. apply sum_list_ext. intros b Hb. apply in_seq in Hb. rewrite !N by lia. reflexivity.
Qed.
(** The cropped kernel keeps at least 1 - threshold. *)
Lemma crop_energy thr k : 0 <= thr -> (1 <= k_n k)%nat -> unit_kernel k ->
  let K := crop k (crop_radius thr k) in (1 <= k_n K <= k_n k)%nat /\
  exists g, entries K g /\ (forall a b, (a < k_n K)%nat -> (b < k_n K)%nat -> 0 <= g a b) /\ 1 - thr <= entry_total (k_n K) g <= 1.
Proof.
  intros Ht Hn U. pose proof U as (g & He & H0 & H1). cbv zeta. set (c := crop_radius thr k).
  assert (Hw : (k_n (crop k c) <= k_n k)%nat) by (pose proof (window_range k c); cbn [crop k_n]; lia).
  destruct (Nat.leb_spec 2 (k_n k)) as [H2|H2].
  - destruct (pC43_least_radius thr k g He H0 H2) as (A & _ & B). destruct (pC43_cropped_energy thr k g He H2 H0) as (C & _). fold c in A, B, C. assert (Hd : (k_n k / 2 < k_n k)%nat) by (apply Nat.div_lt; lia).
    split.
    + split; auto. cbn [crop k_n]. rewrite window_eq by lia. cbn [snd]. lia.
    + destruct (crop_cases k c (or_introl (unit_density k U))) as [(g' & E' & P' & T')|V].
      * exists g'. split; auto. split; auto. split; auto. rewrite (ksum_entries _ _ E') in C. apply (f_equal fval) in C. cbn [fval] in C. rewrite C.
        destruct B as [B|B]; auto. rewrite B, enclosed_full. lra.
      * exfalso. assert (X : ksum (crop k c) = NaN); [|rewrite X in C; discriminate].
        apply nsum_nan. apply in_map_iff. exists (0%nat, 0%nat). assert (1 <= k_n (crop k c))%nat by (cbn [crop k_n]; rewrite window_eq by lia; cbn [snd]; lia).
        split; [apply V; cbn [fst snd]; lia|]. unfold grid. apply in_prod; apply in_seq; lia.
  - assert (E1 : k_n k = 1%nat) by lia.
    assert (W : window k c = (0%nat, 1%nat)). { unfold c, crop_radius. rewrite E1. cbn [Nat.div Nat.divmod fst crop_search]. unfold window. rewrite E1. reflexivity. }
    unfold crop. rewrite W. cbn [fst snd k_n k_at]. split; [lia|]. exists g. split; [|split].
    + intros a b Ha Hb. cbn [k_n k_at] in *. apply He; lia.
    + intros a b Ha Hb. apply H0; lia.
    + rewrite E1 in H1. lra.
Qed.
Lemma full_size z j1 d psf R x : 8 <= R <= 128 -> (0 <= d_max_radius d)%Z -> psf_kernel d = Ok psf -> d_sigma d <> 0 ->
  (1 <= Z.of_nat (k_n (full_kernel z j1 d psf R x)) <= 2 * Z.max 128 (psf_radius d) + 1)%Z.
Proof.
  intros HR Hm Hk Hs. unfold full_kernel. destruct (nlt x _); cbn [knorm k_n].
  - destruct (pC46_kernel d Hs Hm) as (k & g & Hk' & _ & Hn & _). rewrite Hk in Hk'. inversion Hk'; subst k. pose proof (psf_radius_nonneg d Hm). lia.
  - cbn [airy_grid k_n]. pose proof (ceil_spec (2 * R + 1)) as C. set (q := ceil (2 * R + 1)) in *. clearbody q.
    assert (17 <= q)%Z by (apply le_IZR; lra). assert (q < 258)%Z by (apply lt_IZR; lra). lia.
Qed.
(** Pixels reached by a kernel. *)
Lemma hit_range h w f i j zc yc k M : (Z.of_nat (k_n k) <= 2 * M + 1)%Z -> pix h w f i j zc yc k <> Fin 0 ->
  zc - IZR M - 1 < INR i <= zc + IZR M + 1 /\ yc - IZR M - 1 < INR j <= yc + IZR M + 1.
Proof.
  intros HM H. unfold pix in H. apply nsum_nonzero in H as (dp & Hin & Hh). destruct (hit f i j dp) eqn:E; [|contradiction]. clear Hh.
  unfold kernel_deposits in Hin. cbv zeta in Hin. apply in_concat in Hin as (l & Hl & Hin). apply in_map_iff in Hl as ([a b] & <- & Hab).
  apply in_prod_iff in Hab as [A B]. apply in_seq in A, B. cbn [fst snd] in Hin.
  pose proof (Nat.div_mod_eq (k_n k) 2) as D. pose proof (Nat.mod_upper_bound (k_n k) 2 ltac:(lia)) as U. set (c := (k_n k / 2)%nat) in *. 
  assert (G : forall x, (x < k_n k)%nat -> - IZR M <= INR x - INR c <= IZR M).
  { intros x Hx. rewrite !INR_IZR_INZ, <- minus_IZR, <- opp_IZR. split; apply IZR_le; lia. }
  pose proof (G a ltac:(lia)) as Ga. pose proof (G b ltac:(lia)) as Gb.
  unfold bilinear in Hin. cbv zeta in Hin. apply filter_In in Hin as [Hin _].
  destruct (base_Int_part (zc + (INR a - INR c))) as [P1 P2]. destruct (base_Int_part (yc + (INR b - INR c))) as [P3 P4].
  set (z0 := Int_part (zc + (INR a - INR c))) in *. set (y0 := Int_part (yc + (INR b - INR c))) in *. clearbody z0 y0.
  assert (X : exists u v, (u = z0 \/ u = z0 + 1)%Z /\ (v = y0 \/ v = y0 + 1)%Z /\ Z.of_nat i = u /\ Z.of_nat j = v).
  { destruct dp as [[[f' i'] j'] v']. unfold hit in E. repeat (apply andb_true_iff in E as [E ?]). rewrite ?Z.eqb_eq in *.
    exists i', j'. destruct Hin as [Hin|[Hin|[Hin|[Hin|[]]]]]; inversion Hin; subst; repeat split; auto; lia. }
  destruct X as (u & v & Hu & Hv & Ei & Ej). rewrite !INR_IZR_INZ, Ei, Ej.
  destruct Hu as [->| ->], Hv as [->| ->]; rewrite ?plus_IZR; lra.
Qed.
Lemma item_inside z j1 d psf rk x s f : d_sigma d <> 0 -> (0 <= d_max_radius d)%Z -> 0 <= d_threshold d -> psf_kernel d = Ok psf ->
  row_kernel z j1 d psf rk -> first_zero z d (fst rk) = Fin x -> peak_intensity (fst rk) = Fin s -> 0 <= s ->
  fcol (fst rk) 28 = INR f ->
  (let m := IZR (Z.max 128 (psf_radius d) + psf_radius d) in m <= pos_z d (fst rk) /\ pos_z d (fst rk) + m + 1 < INR (d_nz d) /\
    m <= pos_y d (fst rk) /\ pos_y d (fst rk) + m + 1 < INR (d_ny d)) ->
  (forall i j, (i < d_nz d)%nat -> (j < d_ny d)%nat -> is_finite (part d f i j rk) = true) ->
  (forall i j, part d f i j rk <> Fin 0 -> (psf_radius d <= Z.of_nat i /\ Z.of_nat i + psf_radius d < Z.of_nat (d_nz d) /\ psf_radius d <= Z.of_nat j /\ Z.of_nat j + psf_radius d < Z.of_nat (d_ny d))%Z) /\
  exists t, nsum (map (fun ij => part d f (fst ij) (snd ij) rk) (list_prod (seq 0 (d_nz d)) (seq 0 (d_ny d)))) = Fin t /\ (1 - d_threshold d) * s <= t <= s.
Proof.
  intros Hs Hm Hthr Hk (R & m & HR & E) Ex Ei H0 Ef Hpos Hfin. rewrite Ex in E. unfold part in *.
  assert (Ef' : Reqb (fcol (fst rk) 28) (INR f) = true) by now apply Reqb_true. rewrite Ef' in *. rewrite Ei, E in *.
  pose proof (psf_radius_nonneg d Hm) as Hp0. set (p := psf_radius d) in *. set (M := Z.max 128 p) in *. assert (HM0 : (128 <= M)%Z) by lia.
  set (zc := pos_z d (fst rk)) in *. set (yc := pos_y d (fst rk)) in *.
  set (K := fst (airy_kernel z j1 d psf R (Fin x))) in *.
  assert (EK : K = crop (full_kernel z j1 d psf R (Fin x)) (crop_radius (d_threshold d) (full_kernel z j1 d psf R (Fin x)))) by reflexivity.
  pose proof (full_size z j1 d psf R (Fin x) HR Hm Hk Hs) as Hsz. fold p M in Hsz.
  assert (KM : (Z.of_nat (k_n K) <= 2 * M + 1)%Z).
  { pose proof (window_range (full_kernel z j1 d psf R (Fin x)) (crop_radius (d_threshold d) (full_kernel z j1 d psf R (Fin x)))) as W.
    change (k_n K) with (snd (window (full_kernel z j1 d psf R (Fin x)) (crop_radius (d_threshold d) (full_kernel z j1 d psf R (Fin x))))). lia. }
  cbv zeta in Hpos. rewrite plus_IZR in Hpos. assert (IZR 0 <= IZR p) by now apply IZR_le. assert (IZR 128 <= IZR M) by now apply IZR_le.
  split.
  - intros i j Hne. rewrite pix_pad in Hne. apply (hit_range _ _ _ _ _ _ _ _ M) in Hne; [|exact KM]. rewrite !INR_IZR_INZ in *.
    repeat split; apply le_IZR || apply lt_IZR || idtac; rewrite ?plus_IZR; try lra.
    + assert (IZR p - 1 < IZR (Z.of_nat i)) as X by lra. rewrite <- minus_IZR in X. apply lt_IZR in X. apply IZR_le. lia.
    + assert (IZR p - 1 < IZR (Z.of_nat j)) as X by lra. rewrite <- minus_IZR in X. apply lt_IZR in X. apply IZR_le. lia.
  - rewrite (nsum_ext _ (fun ij => pix (d_nz d) (d_ny d) f (fst ij) (snd ij) zc yc (kscale (Fin s) K))) by (intros; apply pix_pad).
    assert (FT : is_finite (nsum (map (fun ij => pix (d_nz d) (d_ny d) f (fst ij) (snd ij) zc yc (kscale (Fin s) K)) (list_prod (seq 0 (d_nz d)) (seq 0 (d_ny d))))) = true).
    { apply nsum_finite. intros [i j] Hij. apply in_prod_iff in Hij as [A B]. apply in_seq in A, B. cbn [fst snd]. rewrite <- (pix_pad _ _ _ _ _ _ _ m). apply Hfin; lia. }
    rewrite pix_total in *.
    pose proof (Nat.div_mod_eq (k_n K) 2) as D. pose proof (Nat.mod_upper_bound (k_n K) 2 ltac:(lia)) as U.
    assert (C1 : INR (k_n K / 2) <= IZR M) by (rewrite INR_IZR_INZ; apply IZR_le; lia).
    assert (C2 : INR (k_n K) - INR (k_n K / 2) <= IZR M + 1) by (rewrite !INR_IZR_INZ, <- minus_IZR, <- plus_IZR; apply IZR_le; lia).
    destruct (full_cases z j1 d psf R x Hs Hm Hk) as [UK|V].
    + destruct (crop_energy (d_threshold d) (full_kernel z j1 d psf R (Fin x)) Hthr ltac:(lia) UK) as [_ (g & G1 & G2 & G3)]. rewrite <- EK in G1, G2, G3.
      rewrite (pC45_kernel_total _ _ _ _ _ (kscale (Fin s) K) (fun a b => s * g a b)); cbn [kscale k_n]; try lra.
      * exists (s * entry_total (k_n K) g). rewrite entry_total_scal. split; auto. split.
        -- rewrite Rmult_comm. apply Rmult_le_compat_l; lra.
        -- rewrite <- (Rmult_1_r s) at 2. apply Rmult_le_compat_l; lra.
      * intros a b Ha Hb. cbn [kscale k_n k_at] in *. rewrite G1 by auto. cbn [nmul]. f_equal. ring.
    + exfalso. set (FK := full_kernel z j1 d psf R (Fin x)) in *. set (cr := crop_radius (d_threshold d) FK) in *.
      assert (K1 : (1 <= k_n K)%nat).
      { rewrite EK. destruct (Nat.leb_spec 2 (k_n FK)) as [H2|H2].
        - pose proof (crop_radius_range (d_threshold d) FK H2) as CR. fold cr in CR. assert (Hd : (k_n FK / 2 < k_n FK)%nat) by (apply Nat.div_lt; lia). cbn [crop k_n]. rewrite window_eq by lia. cbn [snd]. lia.
        - assert (E1 : k_n FK = 1%nat) by lia. unfold cr, crop_radius. rewrite E1. cbn [Nat.div Nat.divmod fst crop_search]. unfold crop, window. rewrite E1. cbn. lia. }
      assert (VK : k_at K 0 0 = NaN).
      { rewrite EK. cbn [crop k_at]. pose proof (window_range FK cr). rewrite EK in K1. cbn [crop k_n] in K1. apply V; lia. }
      assert (Dp : In (Z.of_nat f, Int_part (zc + (INR 0 - INR (k_n K / 2))), Int_part (yc + (INR 0 - INR (k_n K / 2))), NaN) (kernel_deposits (d_nz d) (d_ny d) (Z.of_nat f) zc yc (kscale (Fin s) K))).
      { unfold kernel_deposits. cbv zeta. apply in_concat. eexists. split; [apply in_map_iff; exists (0%nat, 0%nat); split; [reflexivity|unfold grid; apply in_prod; apply in_seq; cbn [kscale k_n]; lia]|].
        cbn [fst snd kscale k_n k_at]. rewrite VK. cbn [INR]. pose proof (pos_INR (k_n K / 2)). rewrite bilinear_inside; cbn [INR]; try lra. left. reflexivity. }
      pose proof (nsum_each_finite _ _ FT _ Dp) as X. discriminate X.
Qed.
(** The frame of a 'nano' image whose peaks lie far from the border holds their scattering
    strength up to the relative threshold at which the kernels are cropped. *)
Lemma pC74_interior_total : forall e d pd frames ml mi im out f T, fresh pd -> volumes_ok pd -> 0 < d_pz d -> d_sigma d <> 0 -> (0 <= d_max_radius d)%Z ->
  0 <= d_threshold d -> permutes (re_argsort e) -> render e d pd frames "nano" ml mi = Ok (im, out) ->
  (forall r, In r (pd_peaks out) -> proper_disc out r) -> (f < f_n im)%nat -> (forall r, In r (rows_in_frame out f) -> deep d out r) ->
  frame_total im f = Fin T ->
  (1 - d_threshold d) * sum_list (map (strength out) (rows_in_frame out f)) <= T <= sum_list (map (strength out) (rows_in_frame out f)).
Proof.
  intros e d pd frames ml mi im out f T Hf Hv Pz Hs Hm Hthr Hp H Hd Hfn Hdeep HT. split.
  2: { eapply pC74_total_bounded; eauto. }
  pose proof (render_inv _ _ _ _ _ _ _ _ _ H) as Ho. pose proof (nframes_ge frames) as Hn.
  pose proof (out_columns _ _ _ _ _ Hf Ho) as Hc.
  pose proof (nano_inv _ _ _ _ _ _ _ _ H) as [_ Hme].
  destruct (pd_peaks out) as [|r0 rows] eqn:Er.
  { assert (E0 : frame_total im f = Fin 0).
    { unfold nano_method, render_airy in Hme. inversion Hme; subst im. apply nsum_zero. reflexivity. }
    rewrite HT in E0. inversion E0. unfold rows_in_frame. rewrite Er. cbn [filter map]. rewrite sum_list_nil. lra. }
  rewrite <- Er in *. assert (Hne : pd_peaks out <> []) by (rewrite Er; discriminate).
  destruct (nano_items e d pd frames ml mi im out Hf Hp H Hne) as (psf & items & Hk & HP & HI & ->).
  set (n := Z.to_nat (nframes frames)) in *. cbn [conv3 f_n] in Hfn.
  set (raw := Fr n (d_nz d) (d_ny d) _) in *.
  destruct (pC46_kernel d Hs Hm) as (k & kg & Hk' & He & Hkn & Hpos & _). rewrite Hk in Hk'. inversion Hk'; subst k. clear Hk'.
  assert (Hkn0 : (0 < k_n psf)%nat) by (rewrite Hkn; pose proof (psf_radius_nonneg d Hm); lia).
  assert (RF : forall i j, (i < d_nz d)%nat -> (j < d_ny d)%nat -> is_finite (f_at raw f i j) = true).
  { intros i j Hi Hj. apply (conv_finite psf kg (d_nz d) (d_ny d) (f_at raw f) i j He Hpos Hkn0 Hi Hj).
    change (conv2 psf (d_nz d) (d_ny d) (f_at raw f) i j) with ((fun ij => f_at (conv3 psf raw) f (fst ij) (snd ij)) (i, j)).
    apply (nsum_each_finite _ (list_prod (seq 0 (d_nz d)) (seq 0 (d_ny d)))).
    - change (is_finite (frame_total (conv3 psf raw) f) = true). now rewrite HT.
    - apply in_prod; apply in_seq; lia. }
  assert (RE : forall i j, f_at raw f i j = nsum (map (part d f i j) items)).
  { intros i j. unfold raw. cbn [f_at]. destruct (Nat.ltb_spec f n); [reflexivity|lia]. }
  set (w := fun rk : list num * kernel => if Reqb (fcol (fst rk) 28) (INR f) then strength out (fst rk) else 0).
  assert (RI : forall rk, In rk items -> (forall i j, part d f i j rk <> Fin 0 ->
     (psf_radius d <= Z.of_nat i /\ Z.of_nat i + psf_radius d < Z.of_nat (d_nz d) /\ psf_radius d <= Z.of_nat j /\ Z.of_nat j + psf_radius d < Z.of_nat (d_ny d))%Z) /\
    exists t, nsum (map (fun ij => part d f (fst ij) (snd ij) rk) (list_prod (seq 0 (d_nz d)) (seq 0 (d_ny d)))) = Fin t /\ (1 - d_threshold d) * w rk <= t).
  { intros rk Hrk. assert (Hin : In (fst rk) (pd_peaks out)) by (apply (Permutation_in _ HP); now apply in_map).
    destruct (projected_prow _ _ _ _ _ _ Hf Hn Ho Hin) as (q & zd & yd & i & P). destruct (volumes_out _ _ _ _ _ _ Hf Hv Ho Hin) as (v & Ev & _).
    destruct (out_reads _ _ _ _ _ _ Hf Hn Ho Hin) as (E1 & E2 & E3 & E4 & E5 & _).
    assert (Es : peak_intensity (fst rk) = Fin (strength out (fst rk))).
    { unfold strength. rewrite E4, E5. unfold fcol, peak_intensity. rewrite (pr_i _ _ _ _ _ _ _ P), Ev. reflexivity. }
    unfold w. destruct (Reqb (fcol (fst rk) 28) (INR f)) eqn:Ef.
    2: { assert (Z0 : forall i j, part d f i j rk = Fin 0) by (intros; unfold part; now rewrite Ef). split; [intros; exfalso; auto|]. exists 0. split; [apply nsum_zero; intros; apply Z0|lra]. }
    rewrite Forall_forall in HI.
    destruct (item_inside (re_z e) (re_j1 e) d psf rk (disc_radius d out (fst rk)) (strength out (fst rk)) f Hs Hm Hthr Hk (HI rk Hrk)) as [A (t & B & C)]; auto.
    - apply first_zero_val; auto. apply (pr_len _ _ _ _ _ _ _ P).
    - exact (strength_nonneg _ _ _ _ _ _ Hf Hv Hn Ho Hin).
    - now apply Reqb_true.
    - assert (HR : In (fst rk) (rows_in_frame out f)) by (apply filter_In; split; auto; now rewrite E1). specialize (Hdeep _ HR). unfold deep in Hdeep. rewrite E2, E3 in Hdeep. exact Hdeep.
    - intros i' j' Hi Hj. specialize (RF i' j' Hi Hj). rewrite RE in RF. exact (nsum_each_finite _ _ RF rk Hrk).
    - split; auto. exists t. split; auto. tauto. }
  destruct (pC46_convolution_conserves d psf raw f Hs Hm Hk) as [_ EC].
  { intros i j (_ & Hi & Hj). apply RF; auto. }
  { exact Hfn. }
  { intros i j (_ & Hi & Hj) Hnz. rewrite RE in Hnz. apply nsum_nonzero in Hnz as (rk & Hrk & Hnz). destruct (RI rk Hrk) as [A _]. exact (A i j Hnz). }
  assert (ET : frame_total raw f = Fin (sum_list (map (fun rk => fval (nsum (map (fun ij => part d f (fst ij) (snd ij) rk) (list_prod (seq 0 (d_nz d)) (seq 0 (d_ny d)))))) items))).
  { unfold frame_total. change (f_h raw) with (d_nz d). change (f_w raw) with (d_ny d).
    rewrite (nsum_ext _ (fun ij => nsum (map (part d f (fst ij) (snd ij)) items))) by (intros; apply RE).
    rewrite (nsum_swap (fun ij rk => part d f (fst ij) (snd ij) rk)). apply nsum_fin_map. intros rk Hrk. destruct (RI rk Hrk) as [_ (v & -> & _)]. reflexivity. }
  rewrite HT, ET in EC. apply (f_equal fval) in EC. cbn [fval] in EC. rewrite EC.
  apply Rle_trans with (sum_list (map (fun rk => (1 - d_threshold d) * w rk) items)).
  - rewrite sum_list_map_scal. right. f_equal. unfold w. rewrite <- (map_map fst (fun r => if Reqb (fcol r 28) (INR f) then strength out r else 0)).
    rewrite (sum_perm (map _ (map fst items)) (map (fun r => if Reqb (fcol r 28) (INR f) then strength out r else 0) (pd_peaks out))) by now apply Permutation_map.
    rewrite nsum_const_if. unfold rows_in_frame. f_equal. f_equal. apply filter_ext_in. intros r Hr.
    destruct (out_reads _ _ _ _ _ _ Hf Hn Ho Hr) as (-> & _). reflexivity.
  - apply sum_list_le_map. intros rk Hrk. destruct (RI rk Hrk) as [_ (v & -> & Hle)]. exact Hle.
Qed.
(** ** Small discs: the totals are numbers *)
Lemma entry_total_ge n g a b : (a < n)%nat -> (b < n)%nat -> (forall a b, (a < n)%nat -> (b < n)%nat -> 0 <= g a b) -> g a b <= entry_total n g.
Proof.
  intros Ha Hb H0. rewrite entry_total_list. set (G := fun ab : nat * nat => if (Nat.ltb (fst ab) n && Nat.ltb (snd ab) n)%bool then g (fst ab) (snd ab) else 0).
  assert (GP : forall ab, 0 <= G ab).
  { intros [x y]. unfold G. cbn [fst snd]. destruct (Nat.ltb_spec x n); cbn [andb]; [|lra]. destruct (Nat.ltb_spec y n); [|lra]. auto. }
  assert (GE : forall x y, (x < n)%nat -> (y < n)%nat -> g x y = G (x, y)).
  { intros x y Hx Hy. unfold G. cbn [fst snd]. destruct (Nat.ltb_spec x n); [|lia]. destruct (Nat.ltb_spec y n); [|lia]. reflexivity. }
  rewrite (sum_list_ext _ G) by (intros [x y] Hxy; apply in_prod_iff in Hxy as [A B]; apply in_seq in A, B; apply GE; cbn [fst snd]; lia).
  rewrite GE by auto. apply Rle_trans with (sum_list (map G [(a, b)])); [cbn [map]; rewrite sum_list_cons, sum_list_nil; lra|].
  apply sum_incl_le; auto; [repeat constructor; intros []|]. intros p [<-|[]]. apply in_prod; apply in_seq; lia.
Qed.
Lemma grid_not_void z j1 d n x : d_sigma d <> 0 -> (0 <= n)%Z -> 1/2 <= x -> unit_kernel (knorm z (airy_grid z j1 d (IZR n) (Fin x))).
Proof.
  intros Hs Hn Hx. set (k := airy_grid z j1 d (IZR n) (Fin x)).
  set (g := fun a b => fval (k_at k a b)).
  assert (V : forall a b, exists v, k_at k a b = Fin v /\ 0 <= v) by (intros a b; unfold k, airy_grid; cbn [k_at]; apply profile_fin; auto; lra).
  assert (He : entries k g). { intros a b _ _. unfold g. destruct (V a b) as (v & -> & _). reflexivity. }
  assert (H0 : forall a b, (a < k_n k)%nat -> (b < k_n k)%nat -> 0 <= g a b). { intros a b _ _. unfold g. destruct (V a b) as (v & -> & Hv). exact Hv. }
  destruct (knorm_cases z k g He H0) as [U|W]; auto. exfalso.
  assert (Nk : k_n k = Z.to_nat (2 * n + 1)). { unfold k, airy_grid. cbn [k_n]. f_equal. apply ceil_eq. rewrite plus_IZR, mult_IZR. lra. }
  set (c := Z.to_nat n). assert (Hc : (c < k_n k)%nat) by lia.
  assert (G1 : k_at k c c = Fin 1).
  { unfold k, airy_grid. cbn [k_at]. replace (- IZR n + INR c) with 0 by (rewrite INR_IZR_INZ; unfold c; rewrite Z2Nat.id by lia; ring).
    replace (0 ^ 2 + 0 ^ 2) with 0 by ring. rewrite sqrt_0. unfold airy_profile. cbv zeta. destruct (Req_EM_T 0 0); [|lra].
    destruct (Rlt_dec (Rabs (/10^10)) (/10^8)) as [_|N].
    - destruct (nlt _ _); auto. rewrite gexp_val by auto. cbn [nmul]. f_equal. replace (0 ^ 2) with 0 by ring. replace (- 0 / (2 * d_sigma d ^ 2)) with 0 by (unfold Rdiv; ring). rewrite exp_0. ring.
    - exfalso. apply N. rewrite Rabs_right by (left; apply Rinv_0_lt_compat; lra). apply Rinv_lt_contravar; lra. }
  pose proof (entry_total_ge (k_n k) g c c Hc Hc H0) as T. unfold g at 1 in T. rewrite G1 in T. cbn [fval] in T.
  specialize (W c c). cbn [knorm k_n k_at] in W. rewrite (ksum_entries k g He), G1 in W. rewrite ndiv_fin in W by lra. specialize (W Hc Hc). discriminate.
Qed.
(** When no disc is larger than 2 pixels every frame of a 'nano' image has a finite total. *)
Lemma pC74_small_discs_finite : forall e d pd frames ml mi im out f, fresh pd -> volumes_ok pd -> built d -> 0 < d_pz d -> d_sigma d <> 0 -> (0 <= d_max_radius d)%Z ->
  permutes (re_argsort e) -> render e d pd frames "nano" ml mi = Ok (im, out) ->
  (forall r, In r (pd_peaks out) -> proper_disc out r /\ disc_radius d out r <= 2) -> (f < f_n im)%nat ->
  exists T, frame_total im f = Fin T.
Proof.
  intros e d pd frames ml mi im out f Hf Hv Hb Pz Hs Hm Hp H Hd Hfn. pose proof (nano_inv _ _ _ _ _ _ _ _ H) as [Ho Hme]. pose proof (nframes_ge frames) as Hn.
  destruct (pd_peaks out) as [|r0 rows] eqn:Er.
  { exists 0. unfold nano_method, render_airy in Hme. inversion Hme; subst im. apply nsum_zero. reflexivity. }
  rewrite <- Er in *. assert (Hne : pd_peaks out <> []) by (rewrite Er; discriminate).
  destruct (pC46_kernel d Hs Hm) as (psf & kg & Hk & He & _ & Hpos & _).
  destruct (nano_image e d pd (nframes frames) out psf Hf Hv Hb Pz Hn Ho Hne Hk) as (R & HR & Him).
  { intros r Hr. now apply Hd. } { left. intros r Hr. now apply Hd. }
  rewrite (Him e eq_refl eq_refl Hp) in Hme.
  match type of Hme with Ok ?x = Ok ?y => assert (EI : y = x) by congruence; clear Hme Him; subst im end.
  destruct (small_radius d) as (n & Hn0 & Hsr).
  assert (ER : R = IZR n). { specialize (HR r0). rewrite Hsr in HR by (apply Hd; rewrite Er; now left). assert (X : In r0 (pd_peaks out)) by (rewrite Er; now left). specialize (HR X). now inversion HR. }
  set (raw := Fr _ _ _ _) in *. cbn [conv3 f_n] in Hfn.
  destruct (pC46_convolution_loses_only d psf raw f Hs Hm Hk Hfn) as (t & t' & _ & Et' & _); [|now exists t'].
  intros i j (_ & Hi & Hj). unfold raw. cbn [f_at]. destruct (Nat.ltb f _); [|exists 0; split; auto; lra].
  set (K := fun r => fst (airy_kernel (re_z e) (re_j1 e) d psf R (Fin (disc_radius d out r)))).
  assert (C : forall r, In r (pd_peaks out) -> exists v, contrib d K f i j r = Fin v /\ 0 <= v).
  { intros r Hr. unfold contrib. destruct (Reqb _ _); [|exists 0; split; auto; lra].
    destruct (projected_prow _ _ _ _ _ _ Hf Hn Ho Hr) as (q & zd & yd & it & P). destruct (volumes_out _ _ _ _ _ _ Hf Hv Ho Hr) as (v & Ev & _).
    destruct (out_reads _ _ _ _ _ _ Hf Hn Ho Hr) as (_ & _ & _ & E4 & E5 & _).
    assert (Es : peak_intensity r = Fin (strength out r)).
    { unfold strength. rewrite E4, E5. unfold fcol, peak_intensity. rewrite (pr_i _ _ _ _ _ _ _ P), Ev. reflexivity. }
    rewrite Es.
    enough (D : density (K r)) by exact (proj1 (pix_density _ _ f _ _ (K r) _ D (strength_nonneg _ _ _ _ _ _ Hf Hv Hn Ho Hr)) i j).
    assert (U : unit_kernel (full_kernel (re_z e) (re_j1 e) d psf R (Fin (disc_radius d out r)))).
    { unfold full_kernel. cbn [nlt]. destruct (Rltb _ _) eqn:E.
      - destruct (knorm_cases (re_z e) psf kg He) as [U|W]; [intros; left; auto|exact U|].
        exfalso. destruct (pC46_kernel d Hs Hm) as (k & g & Hk' & He' & Hkn & _ & Ht & _). rewrite Hk in Hk'. inversion Hk'; subst k.
        pose proof (psf_radius_nonneg d Hm). specialize (W 0%nat 0%nat). cbn [knorm k_n k_at] in W. rewrite (ksum_entries psf g He'), Ht, He' in W by lia. rewrite ndiv_fin in W by lra. specialize (W ltac:(lia) ltac:(lia)). discriminate.
      - apply Rltb_false in E. rewrite ER. apply grid_not_void; auto; lra. }
    exact (crop_density _ _ (unit_density _ U)). }
  rewrite (nsum_fin_map _ (fun r => fval (contrib d K f i j r))).
  - eexists. split; [reflexivity|]. apply sum_list_nonneg. intros y Hy. apply in_map_iff in Hy as (r & <- & Hr). destruct (C r Hr) as (v & -> & Hv0). exact Hv0.
  - intros r Hr. destruct (C r Hr) as (v & -> & _). reflexivity.
Qed.
(** A table with a disc of 2 pixels in the middle of a 401 x 401 detector meets the conditions. *)
Lemma xC74_disc : exists e d pd im out r, built d /\ fresh pd /\ volumes_ok pd /\ 0 < d_pz d /\ d_sigma d <> 0 /\ (0 <= d_max_radius d)%Z /\ 0 <= d_threshold d <= 1/10 /\
  permutes (re_argsort e) /\ render e d pd 1 "nano" None 1 = Ok (im, out) /\ f_n im = 1%nat /\ rows_in_frame out 0 = [r] /\ strength out r = 6 /\
  (forall r, In r (pd_peaks out) -> proper_disc out r /\ disc_radius d out r = 2 /\ deep d out r).
Proof.
  destruct ex_world as (me & b & _). set (e := ex_env 0 (fun _ => 1) sort_desc). set (d := flat 10 1 401 1 (1/10) 2).
  set (sp := Spot 200 200 (1/4) 2 3 (2 / (11861/1000))). set (ss := [sp]). set (out := projected_table 1 ss me b).
  assert (Ho : project false d (spot_table ss me b) 1 = Ok out).
  { apply flat_project; try lra. apply Forall_cons; [|apply Forall_nil]; unfold good_spot; cbn [sp s_y s_h s_sf]; change (IZR 401) with 401; repeat split; lra. }
  assert (Hv : volumes_ok (spot_table ss me b)) by (apply volumes_spot; apply Forall_cons; [|apply Forall_nil]; cbn; lra).
  destruct (pC46_radius d) as ((P1 & P2) & _); [cbn; lra|cbn; lia|]. change (d_max_radius d) with 2%Z in P2.
  assert (Hr : forall r, In r (pd_peaks out) -> proper_disc out r /\ disc_radius d out r = 2 /\ deep d out r).
  { intros r Hr. assert (r = spot_out 1 sp) as -> by (cbn in Hr; destruct Hr as [<-|[]]; reflexivity).
    assert (E1 : read out (spot_out 1 sp) "incident_angle" = 0) by reflexivity.
    assert (E2 : read out (spot_out 1 sp) "scherrer_fwhm" = 2 / (11861/1000)) by reflexivity.
    assert (E3 : read out (spot_out 1 sp) "zd" = 200) by reflexivity.
    assert (E4 : read out (spot_out 1 sp) "yd" = 200) by reflexivity.
    split; [split; [|split]|split].
    - eexists. reflexivity.
    - eexists. reflexivity.
    - rewrite E1, Rmult_0_l, cos_0. lra.
    - unfold disc_radius. rewrite E1, E2, Rmult_0_l, cos_0. change (d_c0 d) with (V3 10 0 0). change (d_pz d) with 1. rewrite (norm_sqrt_eq (V3 10 0 0) 10) by (vunf; lra). field.
    - unfold deep. rewrite E3, E4. change (d_pz d) with 1. change (d_py d) with 1. change (d_nz d) with (Pos.to_nat 401). change (d_ny d) with (Pos.to_nat 401).
      set (p := psf_radius d) in *. clearbody p. rewrite INR_IZR_INZ, positive_nat_Z. rewrite Z.max_l by lia. rewrite plus_IZR.
      assert (IZR p <= 2) by (apply IZR_le; lia). change (IZR (Zpos 401)) with 401. lra. }
  destruct (pC46_kernel d) as (psf & kg & Hk & _); [cbn; lra|cbn; lia|].
  destruct (nano_image e d (spot_table ss me b) 1 out psf (spot_fresh _ _ _) Hv) as (R & _ & Him); auto.
  { apply flat_built; [lra|lia]. }
  { cbn; lra. } { lia. } { discriminate. } { intros r Hin. now apply Hr. } { left. intros r Hin. rewrite (proj1 (proj2 (Hr r Hin))). lra. }
  specialize (Him e eq_refl eq_refl sort_permutes).
  assert (EF : read out (spot_out 1 sp) "frame" = 0).
  { change (read out (spot_out 1 sp) "frame") with (IZR (frame_of 1 (Fin (1/4)))). reflexivity. }
  eexists e, d, (spot_table ss me b), _, out, (spot_out 1 sp). split; [apply flat_built; [lra|lia]|]. split; [apply spot_fresh|]. split; [exact Hv|]. split; [cbn; lra|]. split; [cbn; lra|].
  split; [cbn; lia|]. split; [cbn; lra|]. split; [apply sort_permutes|].
  split; [|split; [|split; [|split; [|exact Hr]]]].
  - unfold render. cbv zeta. change (1 <? 1)%Z with false. cbv iota. change (re_z e) with false. rewrite Ho. cbn [bind String.eqb Ascii.eqb Bool.eqb]. rewrite Him. reflexivity.
  - reflexivity.
  - unfold rows_in_frame. change (pd_peaks out) with [spot_out 1 sp]. cbn [filter]. rewrite EF. replace (Reqb 0 (INR 0)) with true by (symmetry; now apply Reqb_true). reflexivity.
  - unfold strength. change (read out (spot_out 1 sp) "intensity_factors") with 2. change (read out (spot_out 1 sp) "volumes") with 3. lra.
Qed.
