(** * Proofs: blurred images and thickness profiles of macro pictures (C46, C79). *)
From Verif Require Import Vec Spec MMotion MLaue MMesh MStrain MBeam MPolycrystal SPolycrystal MDetector SDetector MClip SClip.
From Verif Require Import MRender SRender SMacro SProfile PLaue PBeam PScattering PPolycrystal3 PDetector PDetector2 PDetector3 PDetector4 PClip PRender PRender2 PRenderEx PRender3 PKernel2 PKernel3 PMacro.
Open Scope R_scope.
Local Notation len := List.length.

(** The point-spread function blurs every frame with the normalised cut-off Gaussian. *)
Lemma pC46_blur : forall d k im f g, d_sigma d <> 0 -> (0 <= d_max_radius d)%Z -> psf_kernel d = Ok k ->
  (forall i j, (i < f_h im)%nat -> (j < f_w im)%nat -> f_at im f i j = Fin (g (Z.of_nat i) (Z.of_nat j))) ->
  forall i j, f_at (conv3 k im) f i j = Fin (blur (d_sigma d) (psf_radius d) (f_h im) (f_w im) g (Z.of_nat i) (Z.of_nat j)).
Proof.
  intros d k im f g Hs Hm Hk Hg i j. destruct (psf_entries d Hs Hm) as (k' & Hk' & Hn & He). rewrite Hk in Hk'. inversion Hk'; subst k'; clear Hk'.
  pose proof (psf_radius_nonneg d Hm) as Hr. cbn [conv3 f_at]. unfold conv2. cbv zeta. set (r := psf_radius d) in *. clearbody r.
  assert (Hp : Z.of_nat (k_n k / 2) = r).
  { rewrite Hn. replace (Z.to_nat (2 * r + 1)) with (1 + Z.to_nat r * 2)%nat by lia. rewrite Nat.div_add by lia. change (1 / 2)%nat with 0%nat. lia. }
  rewrite Hp. set (S := entry_total (Z.to_nat (2 * r + 1)) (psf_raw (d_sigma d) r)) in *.
  assert (HS : 0 < S) by (apply entry_total_pos; [lia|intros; apply exp_pos]).
  rewrite (nsum_fin_map _ (fun ab => (gauss_at (d_sigma d) (IZR (Z.of_nat i)) (IZR (Z.of_nat j)) (Z.of_nat i - r + Z.of_nat (fst ab)) (Z.of_nat j - r + Z.of_nat (snd ab)) *
      (if inside_image (f_h im) (f_w im) (Z.of_nat i - r + Z.of_nat (fst ab)) (Z.of_nat j - r + Z.of_nat (snd ab)) then g (Z.of_nat i - r + Z.of_nat (fst ab))%Z (Z.of_nat j - r + Z.of_nat (snd ab))%Z else 0)) * / S)).
  - f_equal. unfold blur. cbv zeta. unfold Rdiv. rewrite Rmult_comm. rewrite <- (sum_list_ext (fun ab => / S * (gauss_at (d_sigma d) (IZR (Z.of_nat i)) (IZR (Z.of_nat j)) (Z.of_nat i - r + Z.of_nat (fst ab)) (Z.of_nat j - r + Z.of_nat (snd ab)) *
      (if inside_image (f_h im) (f_w im) (Z.of_nat i - r + Z.of_nat (fst ab)) (Z.of_nat j - r + Z.of_nat (snd ab)) then g (Z.of_nat i - r + Z.of_nat (fst ab))%Z (Z.of_nat j - r + Z.of_nat (snd ab))%Z else 0)))) by (intros; ring).
    rewrite sum_list_map_scal. f_equal.
    + f_equal. unfold S, entry_total, sum_range. apply sum_list_ext. intros a _. apply sum_list_ext. intros b _. unfold psf_raw, gauss_at. rewrite !plus_IZR, opp_IZR, <- !INR_IZR_INZ. f_equal. f_equal. f_equal. ring.
    + unfold grid. rewrite Hn. rewrite (sum_list_prod (fun a b => gauss_at (d_sigma d) (IZR (Z.of_nat i)) (IZR (Z.of_nat j)) (Z.of_nat i - r + Z.of_nat a) (Z.of_nat j - r + Z.of_nat b) *
      (if inside_image (f_h im) (f_w im) (Z.of_nat i - r + Z.of_nat a) (Z.of_nat j - r + Z.of_nat b) then g (Z.of_nat i - r + Z.of_nat a)%Z (Z.of_nat j - r + Z.of_nat b)%Z else 0))). reflexivity.
  - intros [a b] Hab. unfold grid in Hab. apply in_prod_iff in Hab as [Ha Hb]. apply in_seq in Ha, Hb. cbn [fst snd].
    rewrite He by lia. replace (Z.of_nat i + Z.of_nat a - r)%Z with (Z.of_nat i - r + Z.of_nat a)%Z by lia. replace (Z.of_nat j + Z.of_nat b - r)%Z with (Z.of_nat j - r + Z.of_nat b)%Z by lia.
    set (u := (Z.of_nat i - r + Z.of_nat a)%Z). set (v := (Z.of_nat j - r + Z.of_nat b)%Z). unfold padded. fold (inside_image (f_h im) (f_w im) u v).
    assert (EG : gauss_at (d_sigma d) (IZR (Z.of_nat i)) (IZR (Z.of_nat j)) u v = psf_raw (d_sigma d) r a b).
    { unfold gauss_at, psf_raw, u, v. rewrite !plus_IZR, !minus_IZR, <- !INR_IZR_INZ. f_equal. f_equal. f_equal. ring. }
    rewrite EG. destruct (inside_image (f_h im) (f_w im) u v) eqn:E.
    + unfold inside_image in E. apply andb_true_iff in E as [E E4]. apply andb_true_iff in E as [E E3]. apply andb_true_iff in E as [E1 E2].
      apply Z.leb_le in E1, E3. apply Z.ltb_lt in E2, E4. rewrite Hg by lia. rewrite !Z2Nat.id by lia. cbn [nmul]. f_equal. unfold Rdiv. ring.
    + cbn [nmul]. f_equal. ring.
Qed.

Lemma box_hit d f g r0 c0 rows cols i pr (v : nat -> nat -> R) u w : (forall a b, (a < rows)%nat -> (b < cols)%nat -> pr a b = Fin (v a b)) -> (0 <= r0)%Z -> (0 <= c0)%Z ->
  nsum (map (fun dp => if hit f u w dp then snd dp else Fin 0) (box_deposits d (Z.of_nat g) r0 c0 rows cols i pr)) =
  Fin (if Nat.eqb f g then if box_has (Box r0 (r0 + Z.of_nat rows) c0 (c0 + Z.of_nat cols)) (Z.of_nat u) (Z.of_nat w)
       then i * (v (u - Z.to_nat r0) (w - Z.to_nat c0))%nat * (d_pz d * d_py d) else 0 else 0).
Proof.
  intros Hpr H0 H1. unfold box_deposits. rewrite map_map.
  set (T := i * v (u - Z.to_nat r0)%nat (w - Z.to_nat c0)%nat * (d_pz d * d_py d)).
  set (X := Nat.eqb f g).
  rewrite (nsum_fin_map _ (fun ab => if X then if Nat.eqb u (Z.to_nat r0 + fst ab) then if Nat.eqb w (Z.to_nat c0 + snd ab) then T else 0 else 0 else 0)).
  - f_equal. rewrite (sum_list_prod (fun a b => if X then if Nat.eqb u (Z.to_nat r0 + a) then if Nat.eqb w (Z.to_nat c0 + b) then T else 0 else 0 else 0)).
    destruct X; [|apply sum_zero_of; intros; apply sum_zero_of; auto].
    unfold box_has. cbn [bx_r0 bx_r1 bx_c0 bx_c1].
    assert (SS : forall (x s n : nat) (q : R), sum_list (map (fun a => if Nat.eqb x (s + a) then q else 0) (seq 0 n)) = if (Nat.leb s x && Nat.ltb x (s + n))%bool then q else 0).
    { intros x s n q. destruct (Nat.leb_spec s x); cbn [andb].
      - destruct (Nat.ltb_spec x (s + n)).
        + transitivity (sum_list (map (fun k => if Nat.eqb (x - s) k then q else 0) (seq 0 n))); [|apply sum_single_seq; lia]. apply sum_list_ext. intros a _. destruct (Nat.eqb_spec x (s + a)), (Nat.eqb_spec (x - s) a); auto; lia.
        + apply sum_zero_of. intros a Ha. apply in_seq in Ha. destruct (Nat.eqb_spec x (s + a)); auto; lia.
      - apply sum_zero_of. intros a Ha. destruct (Nat.eqb_spec x (s + a)); auto; lia. }
    transitivity (sum_list (map (fun a => if Nat.eqb u (Z.to_nat r0 + a) then (if (Nat.leb (Z.to_nat c0) w && Nat.ltb w (Z.to_nat c0 + cols))%bool then T else 0) else 0) (seq 0 rows))).
    + apply sum_list_ext. intros a _. destruct (Nat.eqb u (Z.to_nat r0 + a)); [apply SS|apply sum_zero_of; auto].
    + rewrite SS. 
      destruct (Nat.leb_spec (Z.to_nat r0) u), (Z.leb_spec r0 (Z.of_nat u)); try lia; cbn [andb]; auto.
      destruct (Nat.ltb_spec u (Z.to_nat r0 + rows)), (Z.ltb_spec (Z.of_nat u) (r0 + Z.of_nat rows)); try lia; cbn [andb]; auto.
      destruct (Nat.leb_spec (Z.to_nat c0) w), (Z.leb_spec c0 (Z.of_nat w)); try lia; cbn [andb]; auto.
      destruct (Nat.ltb_spec w (Z.to_nat c0 + cols)), (Z.ltb_spec (Z.of_nat w) (c0 + Z.of_nat cols)); try lia; cbn [andb]; auto.
  - intros [a b] Hab. apply in_prod_iff in Hab as [A B]. apply in_seq in A, B. cbn [fst snd]. unfold hit. subst X.
    destruct (Z.eqb_spec (Z.of_nat f) (Z.of_nat g)), (Nat.eqb_spec f g); try lia; cbn [andb]; auto.
    destruct (Z.eqb_spec (Z.of_nat u) (r0 + Z.of_nat a)), (Nat.eqb_spec u (Z.to_nat r0 + a)); try lia; cbn [andb]; auto.
    destruct (Z.eqb_spec (Z.of_nat w) (c0 + Z.of_nat b)), (Nat.eqb_spec w (Z.to_nat c0 + b)); try lia; cbn [andb]; auto.
    rewrite Hpr by lia. cbn [nmul]. f_equal. unfold T. replace (u - Z.to_nat r0)%nat with a by lia. replace (w - Z.to_nat c0)%nat with b by lia. ring.
Qed.
Lemma box_sum_cells r0 r1 c0 c1 g : (0 <= r0)%Z -> (0 <= c0)%Z -> box_sum (Box r0 r1 c0 c1) g =
  sum_list (map (fun ab => g (r0 + Z.of_nat (fst ab))%Z (c0 + Z.of_nat (snd ab))%Z) (list_prod (seq 0 (Z.to_nat (r1 - r0))) (seq 0 (Z.to_nat (c1 - c0))))).
Proof. intros _ _. rewrite (sum_list_prod (fun a b => g (r0 + Z.of_nat a)%Z (c0 + Z.of_nat b)%Z)). reflexivity. Qed.
Lemma pixel_corner_coordinate d i j : built d -> non_collinear (d_c0 d) (d_c1 d) (d_c2 d) -> 
  pixel_coordinate d i j = nfin (pixel_corner d (Z.of_nat i) (Z.of_nat j)).
Proof.
  intros Hb HN. fold (N_of d) in HN. unfold pixel_coordinate, pixel_corner. destruct (detector_frame d Hb HN) as (-> & -> & _).
  rewrite !nvscale_nfin, !nvadd_nfin, <- !INR_IZR_INZ. f_equal. unfold surface_point, zhat_of, yhat_of.
  generalize (INR i * d_pz d) (INR j * d_py d). unfold Rdiv.
  generalize (/ dist (d_c2 d) (d_c0 d)) (/ dist (d_c1 d) (d_c0 d)) (vsub (d_c2 d) (d_c0 d)) (vsub (d_c1 d) (d_c0 d)) (d_c0 d).
  intros. veq.
Qed.
Lemma profile_entries e d pd k r b hl T vol pr : built d -> non_collinear (d_c0 d) (d_c1 d) (d_c2 d) -> (0 <= bx_r0 b)%Z -> (0 <= bx_c0 b)%Z ->
  (4 < (bx_r1 b - bx_r0 b) * (bx_c1 b - bx_c0 b))%Z -> h_volume hl = vol ->
  unit_normals (h_eqs hl) -> (forall h, In h (h_eqs hl) -> dot (hs_n h) (ray_dir pd r) <> 0) ->
  (forall i j, box_has b i j = true -> exists L, length_inside (h_eqs hl) (pixel_corner d i j) (ray_dir pd r) L /\ T i j = cut_off L) ->
  (exists i j, box_has b i j = true /\ 0 < T i j) ->
  project_hull (re_z e) d hl (kout_of pd r) (bx_r0 b, bx_r1 b, bx_c0 b, bx_c1 b) (re_sample e k) = Ok pr ->
  forall a c, (a < Z.to_nat (bx_r1 b - bx_r0 b))%nat -> (c < Z.to_nat (bx_c1 b - bx_c0 b))%nat ->
    pr a c = Fin (T (bx_r0 b + Z.of_nat a)%Z (bx_c0 b + Z.of_nat c)%Z / box_sum b T * vol).
Proof.
  intros Hb HN H0 H1 H4 Hv Hu Hp HT (iu & jv & Hin & Hpos) H a c Ha Hc. destruct b as [r0 r1 c0 c1]. cbn [bx_r0 bx_r1 bx_c0 bx_c1] in *.
  unfold project_hull in H. cbv zeta in H. fold (ray_dir pd r) in H.
  destruct (Z.eqb_spec ((r1 - r0) * (c1 - c0)) 1); [lia|]. destruct (Z.leb_spec ((r1 - r0) * (c1 - c0)) 4); [lia|]. inversion H; subst pr; clear H.
  unfold project_detector_driven. cbv zeta.
  assert (EL : forall a c, (a < Z.to_nat (r1 - r0))%nat -> (c < Z.to_nat (c1 - c0))%nat ->
    match pixel_coordinate d (Z.to_nat r0 + a) (Z.to_nat c0 + c) with NV (Fin x) (Fin y) (Fin w) => clip_length (V3 x y w) (ray_dir pd r) (hull_planes (h_eqs hl)) | _ => 0 end
    = T (r0 + Z.of_nat a)%Z (c0 + Z.of_nat c)%Z).
  { intros a' c' Ha' Hc'. rewrite pixel_corner_coordinate by auto. rewrite !Nat2Z.inj_add, !Z2Nat.id by lia.
    destruct (HT (r0 + Z.of_nat a')%Z (c0 + Z.of_nat c')%Z) as (L & HL & ->).
    { unfold box_has. cbn [bx_r0 bx_r1 bx_c0 bx_c1]. repeat (apply andb_true_iff; split); try apply Z.leb_le; try apply Z.ltb_lt; lia. }
    unfold nfin. set (p := pixel_corner d _ _) in *. transitivity (clip_length p (ray_dir pd r) (hull_planes (h_eqs hl))); [now destruct p|].
    rewrite (pC48_hull_length _ _ _ L Hu Hp HL). unfold cut_off. unfold Rltb. destruct (Rlt_dec _ _); auto. }
  rewrite EL by auto. 
  assert (ES : sum_list (map (fun ab : nat * nat => match pixel_coordinate d (Z.to_nat r0 + fst ab) (Z.to_nat c0 + snd ab) with NV (Fin x) (Fin y) (Fin w) => clip_length (V3 x y w) (ray_dir pd r) (hull_planes (h_eqs hl)) | _ => 0 end)
     (list_prod (seq 0 (Z.to_nat (r1 - r0))) (seq 0 (Z.to_nat (c1 - c0))))) = box_sum (Box r0 r1 c0 c1) T).
  { rewrite box_sum_cells by auto. apply sum_list_ext. intros [a' c'] Hac. apply in_prod_iff in Hac as [A B]. apply in_seq in A, B. cbn [fst snd]. apply EL; lia. }
  rewrite ES.
  assert (HP : 0 < box_sum (Box r0 r1 c0 c1) T).
  { rewrite box_sum_cells by auto. unfold box_has in Hin. cbn [bx_r0 bx_r1 bx_c0 bx_c1] in Hin. apply andb_true_iff in Hin as [Hin B4]. apply andb_true_iff in Hin as [Hin B3]. apply andb_true_iff in Hin as [B1 B2].
    apply Z.leb_le in B1, B3. apply Z.ltb_lt in B2, B4.
    apply (sum_pos_of (fun ab : nat * nat => T (r0 + Z.of_nat (fst ab))%Z (c0 + Z.of_nat (snd ab))%Z)).
    - intros [a' c'] Hac. apply in_prod_iff in Hac as [A B]. apply in_seq in A, B. cbn [fst snd].
      destruct (HT (r0 + Z.of_nat a')%Z (c0 + Z.of_nat c')%Z) as (L & _ & ->).
      { unfold box_has. cbn [bx_r0 bx_r1 bx_c0 bx_c1]. repeat (apply andb_true_iff; split); try apply Z.leb_le; try apply Z.ltb_lt; lia. }
      unfold cut_off. destruct (Rlt_dec _ _) as [Q|]; [|lra]. assert (0 < / 10^12) by (apply Rinv_0_lt_compat; lra). lra.
    - exists (Z.to_nat (iu - r0), Z.to_nat (jv - c0)). split; [apply in_prod; apply in_seq; lia|]. cbn [fst snd]. rewrite !Z2Nat.id by lia.
      replace (r0 + (iu - r0))%Z with iu by lia. replace (c0 + (jv - c0))%Z with jv by lia. exact Hpos. }
  rewrite ndiv_fin by lra. rewrite Hv. reflexivity.
Qed.

(** A macro frame all of whose peaks are lit parts covering more than four pixels: every
    pixel is the blurred sum, over the frame's peaks, of intensity times lit volume times
    pixel area spread over the footprint in proportion to the thickness of the lit part
    along the scattered ray. *)
Lemma pC79_thickness_profile : forall e d pd frames ml mi im out f vol B T, fresh pd -> built d -> 0 < d_zmax d -> 0 < d_ymax d ->
  non_collinear (d_c0 d) (d_c1 d) (d_c2 d) -> d_sigma d <> 0 -> (0 <= d_max_radius d)%Z ->
  render e d pd frames "macro" ml mi = Ok (im, out) ->
  (exists r, In r (pd_peaks out) /\ read out r "frame" = INR f) ->
  (forall k r, nth_error (pd_peaks out) k = Some r -> read out r "frame" = INR f -> profiled e d out r (vol k) (B k) (T k)) ->
  forall i j, f_at im f i j = Fin (blur (d_sigma d) (psf_radius d) (d_nz d) (d_ny d)
    (fun u v => sum_list (map (fun kr => if Reqb (read out (snd kr) "frame") (INR f)
        then thickness_share d out (snd kr) (vol (fst kr)) (B (fst kr)) (T (fst kr)) u v else 0) (numbered (pd_peaks out))))
    (Z.of_nat i) (Z.of_nat j)).
Proof.
  intros e d pd frames ml mi im out f vol B T Hf Hb Pz Py HN Hs Hm H Hex Hall i j.
  assert (Hne : pd_peaks out <> []) by (destruct Hex as (r & Hr & _); intros C; rewrite C in Hr; destruct Hr).
  destruct (macro_inv _ _ _ _ _ _ _ _ H) as [Ho _]. pose proof (nframes_ge frames) as Hn.
  destruct (macro_raw _ _ _ _ _ _ _ _ Hf Hb Pz Py H Hne) as (psf & deps & Hk & HF & _ & En & Eh & Ew & Hat).
  rewrite (Hat f Hex). clear Hat.
  set (raw := Fr _ _ _ _). apply (pC46_blur d psf raw f); auto. clear i j.
  intros i j _ _. cbn [raw f_at]. clear raw.
  assert (R : forall kr ds, In kr (numbered (pd_peaks out)) -> macro_deposits e d (pd_beam out) (pd_mesh out) (pd_motion out) (fst kr) (snd kr) = Ok ds ->
    nsum (map (fun dp => if hit f i j dp then snd dp else Fin 0) ds) =
      Fin (if Reqb (read out (snd kr) "frame") (INR f) then thickness_share d out (snd kr) (vol (fst kr)) (B (fst kr)) (T (fst kr)) (Z.of_nat i) (Z.of_nat j) else 0)).
  { intros [k r] ds Hkr Hd. cbn [fst snd] in *. apply numbered_nth in Hkr as Hnth. pose proof (nth_error_In _ _ Hnth) as Hr.
    destruct (out_reads _ _ _ _ _ _ Hf Hn Ho Hr) as (E28 & _ & _ & E29 & _).
    destruct (projected_prow _ _ _ _ _ _ Hf Hn Ho Hr) as (f' & zd & yd & i' & P). pose proof (pr_frame _ _ _ _ _ _ _ P) as Pf. 
    assert (E28' : fcol r 28 = INR f') by (unfold fcol; now rewrite Pf).
    assert (Et : ztrunc (fcol r 28) = Z.of_nat f') by (rewrite E28'; apply ztrunc_eq; [lia|rewrite <- ?INR_IZR_INZ; lra]).
    rewrite E28, E28'. destruct (Nat.eq_dec f' f) as [->|Hff].
    - replace (Reqb (INR f) (INR f)) with true by (symmetry; now apply Reqb_true).
      rewrite E28' in E28. destruct (Hall k r Hnth E28) as (hl & Hlit & Hvol & Hfp & H4 & Hu & Hp & HT & Hpos).
      destruct (macro_row_lit _ _ _ _ _ _ _ _ _ _ _ _ _ Hf Hn Ho Hr Hd Hlit Hfp) as (pr & Hpr & ->).
      destruct (pC35_box_inside_complete_pixels _ _ _ _ _ _ _ _ Hb Pz Py Hfp) as (Q1 & Q2 & Q3 & Q4 & _).
      rewrite Et. rewrite (box_hit d f f _ _ _ _ _ pr (fun a c => T k (bx_r0 (B k) + Z.of_nat a)%Z (bx_c0 (B k) + Z.of_nat c)%Z / box_sum (B k) (T k) * vol k)); try lia.
      + f_equal. rewrite Nat.eqb_refl. unfold thickness_share. rewrite E29.
        destruct (B k) as [r0 r1 c0 c1] eqn:EB. cbn [bx_r0 bx_r1 bx_c0 bx_c1] in *. 
        replace (r0 + Z.of_nat (Z.to_nat (r1 - r0)))%Z with r1 by nia. replace (c0 + Z.of_nat (Z.to_nat (c1 - c0)))%Z with c1 by nia.
        destruct (box_has (Box r0 r1 c0 c1) (Z.of_nat i) (Z.of_nat j)) eqn:EB2; auto.
        unfold box_has in EB2. cbn [bx_r0 bx_r1 bx_c0 bx_c1] in EB2. apply andb_true_iff in EB2 as [EB2 B4]. apply andb_true_iff in EB2 as [EB2 B3]. apply andb_true_iff in EB2 as [B1 B2].
        apply Z.leb_le in B1, B3. apply Z.ltb_lt in B2, B4.
        replace (r0 + Z.of_nat (i - Z.to_nat r0))%Z with (Z.of_nat i) by lia. replace (c0 + Z.of_nat (j - Z.to_nat c0))%Z with (Z.of_nat j) by lia. ring.
      + intros a c Ha Hc. apply (profile_entries e d out k r (B k) hl (T k) (vol k) pr); auto; lia.
    - replace (Reqb (INR f') (INR f)) with false by (symmetry; apply Reqb_false; intros C; apply INR_eq in C; contradiction).
      apply nsum_zero. intros dp Hdp. destruct (macro_row_shape _ _ _ _ _ _ _ _ Hf Hn Ho Hr Hd) as [->|(hl & b0 & b1 & b2 & b3 & pr & _ & _ & _ & ->)]; [destruct Hdp|].
      unfold box_deposits in Hdp. apply in_map_iff in Hdp as (ab & <- & _). unfold hit. rewrite Et.
      destruct (Z.eqb_spec (Z.of_nat f) (Z.of_nat f')); [lia|reflexivity]. }
  rewrite concat_map, nsum_concat, map_map. clear - HF R. induction HF as [|kr ds l l' Hx _ IH]; cbn [map].
  - reflexivity.
  - rewrite nsum_cons, (R kr ds (or_introl eq_refl) Hx), IH by (intros; apply R; auto; now right).
    rewrite sum_list_cons. reflexivity.
Qed.
Lemma blur_0 s h w g i j : blur s 0 h w g i j = if inside_image h w i j then g i j else 0.
Proof.
  unfold blur. cbv zeta. change (Z.to_nat (2 * 0 + 1)) with 1%nat. unfold sum_range. cbn [seq map]. rewrite !sum_list_cons, !sum_list_nil.
  change (Z.of_nat 0) with 0%Z. rewrite !Z.add_0_r, !Z.sub_0_r. unfold gauss_at. rewrite Z.opp_0.
  replace (- ((IZR i - IZR i)^2 + (IZR j - IZR j)^2) / (2 * s^2)) with 0 by (unfold Rdiv; ring).
  replace (- ((0 - 0)^2 + (0 - 0)^2) / (2 * s^2)) with 0 by (unfold Rdiv; ring). rewrite exp_0. field.
Qed.
(** Without blur (cap 0 on the kernel size) the picture is the thickness picture itself. *)
Lemma pC79_unblurred : forall e d pd frames ml mi im out f vol B T, fresh pd -> built d -> 0 < d_zmax d -> 0 < d_ymax d ->
  non_collinear (d_c0 d) (d_c1 d) (d_c2 d) -> d_sigma d <> 0 -> d_max_radius d = 0%Z ->
  render e d pd frames "macro" ml mi = Ok (im, out) ->
  (exists r, In r (pd_peaks out) /\ read out r "frame" = INR f) ->
  (forall k r, nth_error (pd_peaks out) k = Some r -> read out r "frame" = INR f -> profiled e d out r (vol k) (B k) (T k)) ->
  forall i j, (i < d_nz d)%nat -> (j < d_ny d)%nat ->
    f_at im f i j = Fin (sum_list (map (fun kr => if Reqb (read out (snd kr) "frame") (INR f)
        then thickness_share d out (snd kr) (vol (fst kr)) (B (fst kr)) (T (fst kr)) (Z.of_nat i) (Z.of_nat j) else 0) (numbered (pd_peaks out)))).
Proof.
  intros e d pd frames ml mi im out f vol B T Hf Hb Pz Py HN Hs Hm H Hex Hall i j Hi Hj.
  rewrite (pC79_thickness_profile e d pd frames ml mi im out f vol B T); auto; [|lia].
  assert (Hr : psf_radius d = 0%Z) by (pose proof (psf_radius_nonneg d ltac:(lia)); unfold psf_radius in *; rewrite Hm in *; lia).
  rewrite Hr, blur_0. replace (inside_image _ _ _ _) with true; auto.
  symmetry. unfold inside_image. repeat (apply andb_true_iff; split); try apply Z.leb_le; try apply Z.ltb_lt; lia.
Qed.

(** A lit part of which only a part projects on the detector contributes its whole lit
    volume to the pixels that remain: nothing is lost with the part beside the detector. *)
Lemma pC73_full_weight : forall e d pd frames ml mi im out f vol, fresh pd -> built d -> 0 < d_zmax d -> 0 < d_ymax d ->
  d_sigma d <> 0 -> d_max_radius d = 0%Z ->
  render e d pd frames "macro" ml mi = Ok (im, out) ->
  (exists r, In r (pd_peaks out) /\ read out r "frame" = INR f) ->
  (forall k r, nth_error (pd_peaks out) k = Some r -> read out r "frame" = INR f ->
     exists hl r0 r1 c0 c1, lit_part e out r hl /\ h_volume hl = vol k /\ footprint e d out r hl r0 r1 c0 c1 /\
       (r0 < r1)%Z /\ (c0 < c1)%Z /\
       (((r1 - r0) * (c1 - c0))%Z = 1%Z \/ some_ray_hits e d out k r hl r0 r1 c0 c1)) ->
  frame_total im f = Fin (sum_list (map (fun kr =>
      if Reqb (read out (snd kr) "frame") (INR f) then read out (snd kr) "intensity_factors" * vol (fst kr) * (d_pz d * d_py d) else 0)
    (numbered (pd_peaks out)))).
Proof.
  intros e d pd frames ml mi im out f vol Hf Hb Pz Py Hs Hm H Hex Hall.
  assert (Hr : psf_radius d = 0%Z) by (pose proof (psf_radius_nonneg d ltac:(lia)); unfold psf_radius in *; rewrite Hm in *; lia).
  apply (pC47_macro_frame_total e d pd frames ml mi im out f vol); auto; [lia|].
  intros k r Hk Hfr. destruct (Hall k r Hk Hfr) as (hl & r0 & r1 & c0 & c1 & A & B & C & D & E & F). exists hl, r0, r1, c0, c1.
  split; auto. split; auto. split; auto. split; auto. rewrite Hr. unfold away_from_border.
  destruct (pC35_box_inside_complete_pixels _ _ _ _ _ _ _ _ Hb Pz Py C) as (Q1 & Q2 & Q3 & Q4 & _). lia.
Qed.
