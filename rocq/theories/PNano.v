(** * Nano rendering: influence of the free memory (C42). *)
From Verif Require Import Vec Spec MMotion MLaue MMesh MScattering MStrain MBeam MPolycrystal SPolycrystal MDetector SDetector.
From Verif Require Import MRender SRender SNano PLaue PScattering PBeam PDetector PDetector2 PDetector3 PDetector4 PRender PRender2 PRenderEx PRender3 PKernel PKernel2 PKernel3 PMacro.
From Coq Require Import Permutation FunctionalExtensionality.
Open Scope R_scope.
Local Notation len := List.length.

(** Contribution of a kernel at (zc, yc) to pixel (f,i,j). *)
Definition entry (h w : nat) (f i j : nat) (zc yc : R) (v : num) : num :=
  nsum (map (fun dp => if hit f i j dp then snd dp else Fin 0) (bilinear h w (Z.of_nat f) zc yc v)).
Definition pix (h w : nat) (f i j : nat) (zc yc : R) (k : kernel) : num :=
  nsum (map (fun dp => if hit f i j dp then snd dp else Fin 0) (kernel_deposits h w (Z.of_nat f) zc yc k)).
Lemma pix_entries h w f i j zc yc k : pix h w f i j zc yc k =
  nsum (map (fun ab => entry h w f i j (zc + (INR (fst ab) - INR (k_n k / 2))) (yc + (INR (snd ab) - INR (k_n k / 2))) (k_at k (fst ab) (snd ab)))
       (grid (seq 0 (k_n k)))).
Proof. unfold pix, kernel_deposits. cbv zeta. now rewrite nsum_concat_map. Qed.
Lemma entry_zero h w f i j zc yc : entry h w f i j zc yc (Fin 0) = Fin 0.
Proof.
  unfold entry. apply nsum_zero. intros dp Hin. apply filter_In in Hin as [Hin _].
  cbn [In nmul] in Hin. destruct (hit f i j dp); auto. destruct Hin as [<-|[<-|[<-|[<-|[]]]]]; cbn [snd]; f_equal; ring.
Qed.
Lemma nsum_seq_mid (g g0 : nat -> num) p n q : (forall a, (a < p)%nat -> g a = Fin 0) -> (forall a, (p + n <= a)%nat -> g a = Fin 0) ->
  (forall a, (a < n)%nat -> g (p + a)%nat = g0 a) -> nsum (map g (seq 0 (p + (n + q)))) = nsum (map g0 (seq 0 n)).
Proof.
  intros H1 H2 H3. rewrite !seq_app, !map_app, !nsum_app. rewrite (nsum_zero g (seq 0 p)) by (intros a Ha; apply in_seq in Ha; apply H1; lia).
  rewrite (nsum_zero g (seq (0 + p + n) q)) by (intros a Ha; apply in_seq in Ha; apply H2; lia). rewrite nadd_0_l, nadd_0_r.
  rewrite <- (seq_offset (0 + p) n), map_map. apply nsum_ext. intros a Ha. apply in_seq in Ha. rewrite <- H3 by lia. f_equal.
Qed.
Lemma half_shift n p : ((n + 2 * p) / 2 = n / 2 + p)%nat.
Proof. replace (n + 2 * p)%nat with (n + p * 2)%nat by lia. rewrite Nat.div_add by lia. reflexivity. Qed.
Lemma pix_pad h w f i j zc yc m k s : pix h w f i j zc yc (kscale (Fin s) (pad_to m k)) = pix h w f i j zc yc (kscale (Fin s) k).
Proof.
  unfold pad_to. destruct (Nat.ltb_spec (k_n k) m) as [L|L]; [|reflexivity]. set (p := ((m - k_n k) / 2)%nat). clearbody p. clear L.
  rewrite !pix_entries. unfold kscale. cbn [k_n k_at]. set (n := k_n k). rewrite half_shift.
  set (F := fun a b : nat => if (Nat.leb p a && Nat.ltb a (p + n) && Nat.leb p b && Nat.ltb b (p + n))%bool then k_at k (a - p) (b - p) else Fin 0). unfold grid.
  change (nsum (map (fun ab => entry h w f i j (zc + (INR (fst ab) - INR (n / 2 + p))) (yc + (INR (snd ab) - INR (n / 2 + p))) (nmul (F (fst ab) (snd ab)) (Fin s))) (list_prod (seq 0 (n + 2 * p)) (seq 0 (n + 2 * p)))) =
    nsum (map (fun ab => entry h w f i j (zc + (INR (fst ab) - INR (n / 2))) (yc + (INR (snd ab) - INR (n / 2))) (nmul (k_at k (fst ab) (snd ab)) (Fin s))) (list_prod (seq 0 n) (seq 0 n)))).
  rewrite (nsum_prod (fun a b => entry h w f i j (zc + (INR a - INR (n / 2 + p))) (yc + (INR b - INR (n / 2 + p))) (nmul (F a b) (Fin s)))).
  rewrite (nsum_prod (fun a b => entry h w f i j (zc + (INR a - INR (n / 2))) (yc + (INR b - INR (n / 2))) (nmul (k_at k a b) (Fin s)))).
  replace (n + 2 * p)%nat with (p + (n + p))%nat by lia.
  assert (Z0 : forall a b x y, (Nat.leb p a && Nat.ltb a (p + n))%bool = false \/ (Nat.leb p b && Nat.ltb b (p + n))%bool = false ->
     entry h w f i j x y (nmul (F a b) (Fin s)) = Fin 0).
  { intros a b x y H. unfold F. replace (Nat.leb p a && Nat.ltb a (p + n) && Nat.leb p b && Nat.ltb b (p + n))%bool with false.
    - cbn [nmul]. rewrite Rmult_0_l. apply entry_zero.
    - rewrite <- andb_assoc. destruct H as [-> | ->]; [reflexivity|now rewrite andb_false_r]. }
  apply nsum_seq_mid.
  - intros a Ha. apply nsum_zero. intros b _. apply Z0. left. destruct (Nat.leb_spec p a); [lia|reflexivity].
  - intros a Ha. apply nsum_zero. intros b _. apply Z0. left. destruct (Nat.ltb_spec a (p + n)); [lia|now rewrite andb_false_r].
  - intros a Ha. apply nsum_seq_mid.
    + intros b Hb. apply Z0. right. destruct (Nat.leb_spec p b); [lia|reflexivity].
    + intros b Hb. apply Z0. right. destruct (Nat.ltb_spec b (p + n)); [lia|now rewrite andb_false_r].
    + intros b Hb. f_equal; rewrite ?plus_INR; try ring. unfold F.
      destruct (Nat.leb_spec p (p + a)); [|lia]. destruct (Nat.ltb_spec (p + a) (p + n)); [|lia].
      destruct (Nat.leb_spec p (p + b)); [|lia]. destruct (Nat.ltb_spec (p + b) (p + n)); [|lia]. cbn [andb].
      now replace (p + a - p)%nat with a by lia; replace (p + b - p)%nat with b by lia.
Qed.
Lemma bilinear_in h w f n zc yc v : (f < n)%nat -> Forall (dep_in n h w) (bilinear h w (Z.of_nat f) zc yc v).
Proof.
  intros Hf. apply Forall_forall. intros [[[f' i] j] x] Hin. unfold bilinear in Hin. cbv zeta in Hin. apply filter_In in Hin as [Hin Hb].
  repeat (apply andb_true_iff in Hb as [Hb ?]). rewrite ?Z.leb_le, ?Z.ltb_lt in *.
  assert (f' = Z.of_nat f) by (destruct Hin as [H'|[H'|[H'|[H'|[]]]]]; congruence). subst. cbn. lia.
Qed.
(** One batch adds the contributions of its kernels. *)
Lemma batch_adds z j1 d psf n im rows ks : f_n im = n -> f_h im = d_nz d -> f_w im = d_ny d -> airy_kernels z j1 d psf rows = Ok ks ->
  airy_batch z j1 d psf n im rows = Ok (Fr n (d_nz d) (d_ny d) (fun f i j => nadd (f_at im f i j)
    (nsum (map (fun rk => if (Nat.ltb f n && Reqb (fcol (fst rk) 28) (INR f))%bool
                          then pix (d_nz d) (d_ny d) f i j (pos_z d (fst rk)) (pos_y d (fst rk)) (kscale (peak_intensity (fst rk)) (snd rk)) else Fin 0)
               (combine rows ks))))).
Proof.
  intros En Eh Ew Hk. unfold airy_batch. rewrite Hk. cbn [bind]. set (items := combine rows (map _ _)).
  rewrite index_put_in.
  - rewrite En, Eh, Ew. f_equal. f_equal. extensionality f. extensionality i. extensionality j. f_equal.
    rewrite nsum_concat_map.
    assert (EI : forall G : list num * kernel -> num, nsum (map G items) = nsum (map (fun rk => G (fst rk, kscale (peak_intensity (fst rk)) (snd rk))) (combine rows ks))).
    { intros G. unfold items. clear. revert ks. induction rows as [|r rows IH]; intros [|k ks]; cbn [combine map]; auto. rewrite !nsum_cons. cbn [fst snd]. f_equal. apply IH. }
    transitivity (nsum (map (fun f' => nsum (map (fun rk => if Reqb (fcol (fst rk) 28) (INR f') then
        (if Nat.eqb f' f then pix (d_nz d) (d_ny d) f i j (pos_z d (fst rk)) (pos_y d (fst rk)) (snd rk) else Fin 0) else Fin 0) items)) (seq 0 n))).
    { apply nsum_ext. intros f' _. rewrite nsum_concat_map, nsum_filter. apply nsum_ext. intros [r k] _. cbn [fst snd].
      destruct (Reqb (fcol r 28) (INR f')); auto. destruct (Nat.eqb_spec f' f) as [->|N]; [reflexivity|].
      apply nsum_zero. intros [[[a b] c] v] Hin. unfold hit. apply in_concat in Hin as (l & Hl & Hin). apply in_map_iff in Hl as (ab & <- & _).
      unfold bilinear in Hin. cbv zeta in Hin. apply filter_In in Hin as [Hin _].
      assert (a = Z.of_nat f') by (destruct Hin as [H'|[H'|[H'|[H'|[]]]]]; congruence). subst a.
      destruct (Z.eqb_spec (Z.of_nat f) (Z.of_nat f')); [lia|reflexivity]. }
    rewrite (nsum_swap (fun f' rk => if Reqb (fcol (fst rk) 28) (INR f') then (if Nat.eqb f' f then pix (d_nz d) (d_ny d) f i j (pos_z d (fst rk)) (pos_y d (fst rk)) (snd rk) else Fin 0) else Fin 0)).
    rewrite EI. apply nsum_ext. intros [r k] _. cbn [fst snd].
    set (P := pix _ _ _ _ _ _ _ _). clearbody P.
    destruct (Nat.ltb_spec f n) as [L|L]; cbn [andb].
    + etransitivity; [|apply (nsum_single f (if Reqb (fcol r 28) (INR f) then P else Fin 0) n 0); lia].
      apply nsum_ext. intros f' _. destruct (Nat.eqb_spec f' f) as [->|N]; [reflexivity|]. now destruct (Reqb _ _).
    + apply nsum_zero. intros f' Hf'. apply in_seq in Hf'. destruct (Nat.eqb_spec f' f); [lia|]. now destruct (Reqb _ _).
  - rewrite En, Eh, Ew. apply Forall_forall. intros dp Hin. apply in_concat in Hin as (l & Hl & Hin). apply in_map_iff in Hl as (f & <- & Hf).
    apply in_seq in Hf. apply in_concat in Hin as (l & Hl & Hin). apply in_map_iff in Hl as ([r k] & <- & _).
    unfold kernel_deposits in Hin. cbv zeta in Hin. apply in_concat in Hin as (l & Hl & Hin). apply in_map_iff in Hl as (ab & <- & _).
    pose proof (bilinear_in (d_nz d) (d_ny d) f n (pos_z d r + (INR (fst ab) - INR (k_n k / 2))) (pos_y d r + (INR (snd ab) - INR (k_n k / 2))) (k_at k (fst ab) (snd ab)) ltac:(lia)) as HB.
    rewrite Forall_forall in HB. now apply HB.
Qed.
(** What one row adds to pixel (f,i,j). *)
Definition contrib (d : detector) (K : list num -> kernel) (f i j : nat) (r : list num) : num :=
  if Reqb (fcol r 28) (INR f) then pix (d_nz d) (d_ny d) f i j (pos_z d r) (pos_y d r) (kscale (peak_intensity r) (K r)) else Fin 0.
Definition fin_intensity (r : list num) : Prop := exists s, peak_intensity r = Fin s.
Lemma loop_adds z j1 d psf n (K : list num -> kernel) bs :
  Forall (fun b => exists m, airy_kernels z j1 d psf b = Ok (map (fun r => pad_to m (K r)) b)) bs ->
  Forall fin_intensity (List.concat bs) ->
  forall im, f_n im = n -> f_h im = d_nz d -> f_w im = d_ny d ->
  airy_loop z j1 d psf n im bs = Ok (Fr n (d_nz d) (d_ny d) (fun f i j => nadd (f_at im f i j)
    (if Nat.ltb f n then nsum (map (contrib d K f i j) (List.concat bs)) else Fin 0))).
Proof.
  intros HB. induction HB as [|b bs [m Hb] _ IH]; intros Hfin im En Eh Ew; cbn [airy_loop List.concat map].
  - destruct im as [n' h' w' at']. cbn [f_n f_h f_w f_at] in *. subst. f_equal. f_equal. extensionality f. extensionality i. extensionality j.
    rewrite nsum_nil. destruct (Nat.ltb f n); now rewrite nadd_0_r.
  - cbn [List.concat] in Hfin. apply Forall_app in Hfin as [F1 F2].
    rewrite (batch_adds _ _ _ _ _ _ _ _ En Eh Ew Hb). cbn [bind]. rewrite IH by auto. f_equal. f_equal. extensionality f. extensionality i. extensionality j.
    cbn [f_at]. rewrite <- nadd_assoc. f_equal.
    assert (E : combine b (map (fun r => pad_to m (K r)) b) = map (fun r => (r, pad_to m (K r))) b).
    { clear. induction b; cbn; auto. now rewrite IHb. }
    rewrite E, map_map. cbn [fst snd]. destruct (Nat.ltb f n); cbn [andb].
    + rewrite map_app, nsum_app. f_equal. apply nsum_ext. intros r Hr. unfold contrib. destruct (Reqb _ _); auto.
      rewrite Forall_forall in F1. destruct (F1 r Hr) as [s ->]. apply pix_pad.
    + rewrite nsum_zero; [apply nadd_0_l|]. reflexivity.
Qed.

(** *** Batch radius and stacking of the kernels *)
Lemma fold_max_le c : forall l x, (forall y, In y (x :: l) -> y <= c) -> exists m, fold_left nmax (map Fin l) (Fin x) = Fin m /\ m <= c.
Proof.
  induction l as [|y l IH]; intros x H; cbn [map fold_left]; [exists x; split; auto; apply H; now left|].
  cbn [nmax nlt]. destruct (Rltb x y); apply IH; intros w Hw; apply H; cbn in *; tauto.
Qed.
Lemma fold_max_const x : forall l, (forall y, In y l -> y = x) -> fold_left nmax (map Fin l) (Fin x) = Fin x.
Proof.
  induction l as [|y l IH]; intros H; cbn [map fold_left]; auto. rewrite (H y) by now left. cbn [nmax nlt]. destruct (Rltb x x); apply IH; intros; apply H; now right.
Qed.
Lemma crop_range p l r : forall fuel lo hi, (l <= lo)%nat -> (lo <= hi)%nat -> (hi <= r)%nat -> (hi - lo <= fuel)%nat -> (l <= crop_search p lo hi fuel <= r)%nat.
Proof.
  induction fuel; intros lo hi H1 H2 H3 H4; cbn [crop_search]; [lia|]. destruct (Nat.ltb_spec lo hi) as [L|L]; [|lia]. cbv zeta.
  assert (M : (lo <= (lo + hi) / 2 < hi)%nat) by (split; [apply Nat.div_le_lower_bound; lia|apply Nat.div_lt_upper_bound; lia]).
  destruct (p _); apply IHfuel; lia.
Qed.
Lemma crop_radius_range thr k : (2 <= k_n k)%nat -> (1 <= crop_radius thr k <= k_n k / 2)%nat.
Proof.
  intros H. unfold crop_radius. assert ((1 <= k_n k / 2)%nat) by (apply Nat.div_le_lower_bound; lia). apply crop_range; lia.
Qed.
(** Cropping a kernel of odd size gives a kernel of odd size not above the recorded one. *)
Lemma crop_odd thr k : Nat.odd (k_n k) = true ->
  let c := crop_radius thr k in Nat.odd (k_n (crop k c)) = true /\ (k_n (crop k c) <= 2 * c + 1)%nat.
Proof.
  intros Ho. destruct (Nat.leb_spec 2 (k_n k)) as [H|H].
  - pose proof (crop_radius_range thr k H) as R. cbv zeta. set (c := crop_radius thr k) in *. unfold crop. cbn [k_n].
    rewrite window_eq by lia. cbn [snd]. apply Nat.odd_spec in Ho as [q Hq]. rewrite Hq in *.
    assert (E : ((2 * q + 1) / 2 = q)%nat) by (symmetry; apply Nat.div_unique with 1%nat; lia). rewrite E in *.
    replace (Nat.min (q + c + 1) (2 * q + 1) - (q - c))%nat with (2 * c + 1)%nat by lia. split; [|lia]. apply Nat.odd_spec. now exists c.
  - assert (k_n k = 1%nat) as E. { destruct (k_n k) as [|[|?]]; [discriminate|reflexivity|lia]. }
    cbv zeta. unfold crop_radius. rewrite E. cbn [Nat.div Nat.divmod fst crop_search]. unfold crop, window. rewrite E. cbn. split; [reflexivity|lia].
Qed.
Lemma pad_size m k : Nat.odd m = true -> Nat.odd (k_n k) = true -> (k_n k <= m)%nat -> k_n (pad_to m k) = m.
Proof.
  intros Hm Hk Hle. unfold pad_to. destruct (Nat.ltb_spec (k_n k) m) as [L|L]; [|lia]. cbn [k_n].
  apply Nat.odd_spec in Hm as [p Hp], Hk as [q Hq]. rewrite Hp, Hq.
  replace ((2 * p + 1 - (2 * q + 1)) / 2)%nat with (p - q)%nat; [lia|]. apply Nat.div_unique with 0%nat; lia.
Qed.
Lemma fold_max_odd l : (forall x, In x l -> Nat.odd x = true) -> l <> [] -> Nat.odd (fold_right Nat.max 0%nat l) = true.
Proof.
  induction l as [|x l IH]; intros H Hne; [contradiction|]. cbn [fold_right]. destruct l as [|y l].
  - cbn. rewrite Nat.max_0_r. apply H. now left.
  - destruct (Nat.max_spec x (fold_right Nat.max 0%nat (y :: l))) as [[_ ->]|[_ ->]].
    + apply IH; [intros; apply H; now right|discriminate].
    + apply H. now left.
Qed.
Lemma fold_max_ge l x : In x l -> (x <= fold_right Nat.max 0%nat l)%nat.
Proof. induction l; intros H; [destruct H|]. cbn [fold_right]. destruct H as [->|H]; [lia|]. specialize (IHl H). lia. Qed.
(** Kernels of odd size can always be stacked. *)
Lemma kernels_odd z j1 d psf rows R : rows <> [] -> airy_radius d (nmax_list (map (first_zero z d) rows)) = Ok R ->
  Nat.odd (k_n psf) = true -> Nat.odd (Z.to_nat (ceil (2 * R + 1))) = true ->
  exists m, airy_kernels z j1 d psf rows = Ok (map (fun r => pad_to m (fst (airy_kernel z j1 d psf R (first_zero z d r)))) rows).
Proof.
  intros Hne HR Hp Ho. unfold airy_kernels. rewrite HR. cbn [bind]. rewrite !map_map.
  set (M := fold_right Nat.max 0%nat _). exists M.
  assert (G : forall fz, Nat.odd (k_n (fst (airy_kernel z j1 d psf R fz))) = true /\ (k_n (fst (airy_kernel z j1 d psf R fz)) <= snd (airy_kernel z j1 d psf R fz))%nat).
  { intros fz. unfold airy_kernel. cbn [fst snd]. apply crop_odd. cbn [knorm k_n]. destruct (nlt fz _); [exact Hp|exact Ho]. }
  assert (OM : Nat.odd M = true).
  { unfold M. apply fold_max_odd; [|destruct rows; [contradiction|discriminate]]. intros x Hx. apply in_map_iff in Hx as (r & <- & _).
    unfold airy_kernel. cbn [snd]. apply Nat.odd_spec. eexists. reflexivity. }
  assert (S : forall r, In r rows -> k_n (pad_to M (fst (airy_kernel z j1 d psf R (first_zero z d r)))) = M).
  { intros r Hr. destruct (G (first_zero z d r)) as [G1 G2]. apply pad_size; auto. eapply Nat.le_trans; [exact G2|]. apply fold_max_ge. apply in_map_iff. now exists r. }
  destruct rows as [|r rows]; [contradiction|]. cbn [map].
  match goal with |- (if ?c then _ else _) = _ => replace c with true; [reflexivity|] end. symmetry. apply forallb_forall. intros k Hk.
  apply in_map_iff in Hk as (r' & <- & Hr'). apply Nat.eqb_eq. rewrite S by now right. rewrite S by now left. reflexivity.
Qed.
(** Identical discs can always be stacked. *)
Lemma kernels_same z j1 d psf rows R fz : rows <> [] -> (forall r, In r rows -> first_zero z d r = fz) ->
  airy_radius d (nmax_list (map (first_zero z d) rows)) = Ok R ->
  exists m, airy_kernels z j1 d psf rows = Ok (map (fun r => pad_to m (fst (airy_kernel z j1 d psf R (first_zero z d r)))) rows).
Proof.
  intros Hne Hfz HR. unfold airy_kernels. rewrite HR. cbn [bind]. rewrite !map_map. set (M := fold_right Nat.max 0%nat _). exists M.
  destruct rows as [|r rows]; [contradiction|]. cbn [map].
  match goal with |- (if ?c then _ else _) = _ => replace c with true; [reflexivity|] end. symmetry. apply forallb_forall. intros k Hk.
  apply in_map_iff in Hk as (r' & <- & Hr'). apply Nat.eqb_eq. rewrite (Hfz r') by now right. now rewrite (Hfz r) by now left.
Qed.
Lemma loop_int s thr : forall fuel n, (0 < n)%Z -> exists m, airy_radius_loop s thr (IZR n) fuel = IZR m /\ (0 < m)%Z.
Proof.
  induction fuel; intros n Hn; cbn [airy_radius_loop]; [now exists n|].
  destruct (Rle_dec (IZR n) 128); [|now exists n]. destruct (nlt _ _); [now exists n|].
  rewrite <- mult_IZR. apply IHfuel. lia.
Qed.
Lemma odd_size n : (0 <= n)%Z -> Nat.odd (Z.to_nat (ceil (2 * IZR n + 1))) = true.
Proof.
  intros H. rewrite (ceil_eq _ (2 * n + 1)) by (rewrite plus_IZR, mult_IZR; lra). apply Nat.odd_spec. exists (Z.to_nat n). lia.
Qed.
(** Discs of radius at most 2 pixels all get the same kernel radius. *)
Lemma small_radius d : exists n, (0 <= n)%Z /\ forall x, x <= 2 -> airy_radius d (Fin x) = Ok (IZR n).
Proof.
  destruct (loop_int (d_sigma d) (d_threshold d / 2) 6 8 ltac:(lia)) as (m & E & Hm).
  exists (if Rlt_dec 128 (IZR m) then 128 else m)%Z. split; [destruct (Rlt_dec _ _); lia|].
  intros x Hx. unfold airy_radius. rewrite Rmax_right by lra. rewrite E. destruct (Rlt_dec 128 (IZR m)); reflexivity.
Qed.
Lemma psf_odd d psf : psf_kernel d = Ok psf -> Nat.odd (k_n psf) = true.
Proof.
  unfold psf_kernel. destruct (Z.ltb_spec (psf_radius d) 0) as [L|L]; [discriminate|]. intros H. apply (f_equal (fun x => match x with Ok k => k_n k | Err _ => 0%nat end)) in H. cbv beta iota in H. rewrite <- H.
  change (k_n _) with (Z.to_nat (2 * psf_radius d + 1)). apply Nat.odd_spec. exists (Z.to_nat (psf_radius d)). lia.
Qed.
(** *** Rows *)
Lemma gather_perm {A} (l : list A) idx l' : Permutation idx (seq 0 (len l)) -> gather l idx = Ok l' -> Permutation l' l.
Proof.
  intros HP HG. unfold gather in HG. apply traverse_F2 in HG.
  assert (E : map Some l' = map (nth_error l) idx).
  { clear HP. induction HG as [|i a is' as' Hx _ IH]; cbn [map]; auto. rewrite IH. destruct (nth_error l i); [|discriminate]. inversion Hx; subst. reflexivity. }
  assert (E2 : map (nth_error l) (seq 0 (len l)) = map Some l).
  { clear. induction l as [|a l IH] using rev_ind; auto. rewrite app_length. cbn [List.length]. rewrite seq_app, !map_app. cbn [map seq].
    f_equal.
    - rewrite <- IH. apply map_ext_in. intros i Hi. apply in_seq in Hi. apply nth_error_app1. lia.
    - rewrite nth_error_app2 by lia. now rewrite Nat.add_0_l, Nat.sub_diag. }
  assert (P : Permutation (map Some l') (map Some l)) by (rewrite E, <- E2; now apply Permutation_map).
  assert (Q : forall m : list A, map (fun o => match o with Some a => [a] | None => [] end) (map Some m) = map (fun a => [a]) m) by (intros m; rewrite map_map; reflexivity).
  assert (Q2 : forall m : list A, List.concat (map (fun a => [a]) m) = m) by (induction m; cbn; congruence).
  rewrite <- (Q2 l'), <- (Q2 l), <- (Q l'), <- (Q l), <- !flat_map_concat_map. now apply Permutation_flat_map.
Qed.
Lemma gather_ok {A} (l : list A) idx : Permutation idx (seq 0 (len l)) -> exists l', gather l idx = Ok l' /\ Permutation l' l.
Proof.
  intros HP. assert (HB : forall i, In i idx -> (i < len l)%nat) by (intros i Hi; apply (Permutation_in _ HP), in_seq in Hi; lia).
  assert (G : exists l', gather l idx = Ok l').
  { clear HP. unfold gather. induction idx as [|i idx IH]; cbn [traverse]; [eexists; reflexivity|].
    destruct (nth_error l i) as [a|] eqn:E; [|apply nth_error_None in E; specialize (HB i (or_introl eq_refl)); lia]. cbn [bind].
    destruct IH as [l' ->]; [intros; apply HB; now right|]. cbn [bind]. eexists; reflexivity. }
  destruct G as [l' G]. exists l'. split; auto. eapply gather_perm; eauto.
Qed.
Lemma first_zero_val z d pd r : 0 < d_pz d -> len r = 30%nat -> pd_columns pd = column_names ++ new_columns -> proper_disc pd r ->
  first_zero z d r = Fin (disc_radius d pd r).
Proof.
  intros Hp Hl Hc ((x & Hx) & (y & Hy) & Hcos).
  pose proof (proj1 (has_ncol pd r "scherrer_fwhm" 23 x ltac:(rewrite Hc; reflexivity) ltac:(lia)) Hx) as Ex.
  pose proof (proj1 (has_ncol pd r "incident_angle" 27 y ltac:(rewrite Hc; reflexivity) ltac:(lia)) Hy) as Ey.
  unfold first_zero, airy_dist. rewrite Ex, Ey. unfold has in Hx, Hy. unfold disc_radius, read. unfold read in Hcos. rewrite Hx, Hy in *.
  cbn [nmul ncos]. rewrite ndiv_fin by exact Hcos. cbn [nmul]. rewrite ndiv_fin by lra. reflexivity.
Qed.
Lemma nano_inv e d pd frames ml mi im out : render e d pd frames "nano" ml mi = Ok (im, out) ->
  project (re_z e) d pd (nframes frames) = Ok out /\ nano_method e d (pd_peaks out) (Z.to_nat (nframes frames)) = Ok im.
Proof.
  unfold render. cbv zeta. fold (nframes frames). destruct (project _ _ _ _) as [o|]; [|discriminate]. cbn [bind String.eqb Ascii.eqb Bool.eqb].
  destruct (nano_method _ _ _ _) as [i|] eqn:E; [|discriminate]. cbn [bind]. intros H; inversion H; subst. auto.
Qed.
(** Discs that share one kernel radius whatever the batch: all at most 2 pixels, or all equal. *)
Definition same_size (d : detector) (pd : peaks_dict) : Prop :=
  (forall r, In r (pd_peaks pd) -> disc_radius d pd r <= 2) \/
  (forall r r', In r (pd_peaks pd) -> In r' (pd_peaks pd) -> disc_radius d pd r = disc_radius d pd r').
(** The image of such discs. *)
Lemma nano_image e d pd frames out psf : fresh pd -> volumes_ok pd -> built d -> 0 < d_pz d -> (1 <= frames)%Z ->
  project (re_z e) d pd frames = Ok out -> pd_peaks out <> [] -> psf_kernel d = Ok psf ->
  (forall r, In r (pd_peaks out) -> proper_disc out r) -> same_size d out ->
  exists R, (forall r, In r (pd_peaks out) -> airy_radius d (Fin (disc_radius d out r)) = Ok R) /\
  forall e', re_z e' = re_z e -> re_j1 e' = re_j1 e -> permutes (re_argsort e') ->
  nano_method e' d (pd_peaks out) (Z.to_nat frames) =
    Ok (conv3 psf (Fr (Z.to_nat frames) (d_nz d) (d_ny d) (fun f i j => if Nat.ltb f (Z.to_nat frames) then
         nsum (map (contrib d (fun r => fst (airy_kernel (re_z e) (re_j1 e) d psf R (Fin (disc_radius d out r)))) f i j) (pd_peaks out)) else Fin 0))).
Proof.
  intros Hf Hv Hb Pz Hn Ho Hne Hk Hd Hs.
  pose proof (out_columns _ _ _ _ _ Hf Ho) as Hc.
  assert (FZ : forall r, In r (pd_peaks out) -> first_zero (re_z e) d r = Fin (disc_radius d out r)).
  { intros r Hr. apply first_zero_val; auto. destruct (projected_prow _ _ _ _ _ _ Hf Hn Ho Hr) as (k & zd & yd & i & P). apply (pr_len _ _ _ _ _ _ _ P). }
  assert (FI : Forall fin_intensity (pd_peaks out)).
  { apply Forall_forall. intros r Hr. destruct (projected_prow _ _ _ _ _ _ Hf Hn Ho Hr) as (k & zd & yd & i & P).
    destruct (volumes_out _ _ _ _ _ _ Hf Hv Ho Hr) as (v & Ev & _). exists (i * v). unfold peak_intensity. rewrite (pr_i _ _ _ _ _ _ _ P), Ev. reflexivity. }
  set (rows := pd_peaks out) in *.
  (* a radius common to every batch *)
  assert (exists R, (forall r, In r rows -> airy_radius d (Fin (disc_radius d out r)) = Ok R) /\
    forall b, b <> [] -> incl b rows -> exists m, airy_kernels (re_z e) (re_j1 e) d psf b = Ok (map (fun r => pad_to m (fst (airy_kernel (re_z e) (re_j1 e) d psf R (first_zero (re_z e) d r)))) b)) as (R & HR & HB).
  { destruct Hs as [Hs|Hs].
    - destruct (small_radius d) as (n & Hn0 & Hr). exists (IZR n). split; [intros r Hin; apply Hr, Hs, Hin|]. intros b Hbne Hbi.
      apply kernels_odd; [exact Hbne| |now apply psf_odd with d|now apply odd_size].
      assert (EM : map (first_zero (re_z e) d) b = map Fin (map (disc_radius d out) b)) by (rewrite map_map; apply map_ext_in; intros; now apply FZ, Hbi).
      rewrite EM. destruct b as [|r b]; [contradiction|]. cbn [map nmax_list].
      destruct (fold_max_le 2 (map (disc_radius d out) b) (disc_radius d out r)) as (m & -> & Hm); [|now apply Hr].
      intros y Hy. change (In y (map (disc_radius d out) (r :: b))) in Hy. apply in_map_iff in Hy as (q & <- & Hq). apply Hs, Hbi, Hq.
    - destruct rows as [|r0 rows'] eqn:Er; [contradiction|]. rewrite <- Er in *. assert (H0 : In r0 rows) by (rewrite Er; now left).
      set (x := disc_radius d out r0).
      assert (X : forall r, In r rows -> disc_radius d out r = x) by (intros r Hr; now apply Hs).
      assert (exists R, airy_radius d (Fin x) = Ok R) as [R HR] by (unfold airy_radius; eexists; reflexivity).
      exists R. split; [intros r Hr; now rewrite X|]. intros b Hbne Hbi.
      apply kernels_same with (fz := Fin x); [exact Hbne|intros r Hr; rewrite FZ, X; auto|].
      assert (EM : map (first_zero (re_z e) d) b = map Fin (map (disc_radius d out) b)) by (rewrite map_map; apply map_ext_in; intros; now apply FZ, Hbi).
      rewrite EM. destruct b as [|r b]; [contradiction|]. cbn [map nmax_list]. rewrite (X r) by (apply Hbi; now left).
      rewrite fold_max_const; [exact HR|]. intros y Hy. apply in_map_iff in Hy as (q & <- & Hq). apply X, Hbi. now right. }
  exists R. split; [exact HR|]. intros e' Ez Ej Hp. unfold nano_method, render_airy. rewrite Ez, Ej.
  destruct rows as [|r0 rows'] eqn:Er; [contradiction|]. rewrite <- Er in *.
  rewrite Hk. cbn [bind].
  destruct (gather_ok rows (re_argsort e' (map (airy_memory (re_z e) d) rows))) as (sorted & Hg & HPm).
  { eapply Permutation_trans; [apply Hp|]. now rewrite map_length. }
  rewrite Hg. cbn [bind]. destruct (pC41_terminates _ (airy_memory (re_z e) d) (re_free_nano e' * 1024^3) sorted) as (bs & Eb & Ec & Fb & _).
  rewrite Eb. rewrite (loop_adds _ _ _ _ _ (fun r => fst (airy_kernel (re_z e) (re_j1 e) d psf R (first_zero (re_z e) d r)))).
  - cbn [bind]. f_equal. f_equal. cbn [zeros3 f_at]. f_equal. extensionality f. extensionality i. extensionality j. rewrite nadd_0_l.
    destruct (Nat.ltb f _); auto. rewrite Ec. rewrite (nsum_perm _ (map (contrib d (fun r => fst (airy_kernel (re_z e) (re_j1 e) d psf R (first_zero (re_z e) d r))) f i j) rows)) by (now apply Permutation_map).
    apply nsum_ext. intros r Hr. unfold contrib. now rewrite FZ.
  - apply Forall_forall. intros b Hbin. rewrite Forall_forall in Fb. apply HB; [now apply Fb|]. intros r Hr. apply (Permutation_in _ HPm). rewrite <- Ec. apply in_concat. now exists b.
  - rewrite Ec. apply (Permutation_Forall (Permutation_sym HPm)). exact FI.
  - reflexivity.
  - reflexivity.
  - reflexivity.
Qed.
(** The amount of free memory and the order of the peaks do not influence the image when
    every disc is at most 2 pixels in radius, or when all discs have the same radius:
    two machines that differ in free memory and sorting give the same image. *)
Lemma pC42_equal_sizes_memory_irrelevant : forall e e' d pd frames ml mi im out, fresh pd -> volumes_ok pd -> built d -> 0 < d_pz d ->
  re_z e' = re_z e -> re_j1 e' = re_j1 e -> permutes (re_argsort e) -> permutes (re_argsort e') ->
  render e d pd frames "nano" ml mi = Ok (im, out) ->
  (forall r, In r (pd_peaks out) -> proper_disc out r) ->
  ((forall r, In r (pd_peaks out) -> disc_radius d out r <= 2) \/
   (forall r r', In r (pd_peaks out) -> In r' (pd_peaks out) -> disc_radius d out r = disc_radius d out r')) ->
  render e' d pd frames "nano" ml mi = Ok (im, out).
Proof.
  intros e e' d pd frames ml mi im out Hf Hv Hb Pz Ez Ej Hp Hp' H Hd Hs. destruct (nano_inv _ _ _ _ _ _ _ _ H) as [Ho Hm]. pose proof (nframes_ge frames) as Hn.
  unfold render. cbv zeta. fold (nframes frames). rewrite Ez, Ho. cbn [bind String.eqb Ascii.eqb Bool.eqb].
  assert (Hm' : nano_method e' d (pd_peaks out) (Z.to_nat (nframes frames)) = Ok im); [|now rewrite Hm'].
  destruct (pd_peaks out) as [|r0 rows] eqn:Er.
  { exact Hm. }
  rewrite <- Er in *. assert (Hne : pd_peaks out <> []) by (rewrite Er; discriminate).
  destruct (psf_kernel d) as [psf|] eqn:Ek.
  2: { exfalso. unfold nano_method, render_airy in Hm. rewrite Er, Ek in Hm. discriminate. }
  destruct (nano_image e d pd (nframes frames) out psf Hf Hv Hb Pz Hn Ho Hne Ek Hd Hs) as (R & _ & Him).
  rewrite (Him e eq_refl eq_refl Hp) in Hm. rewrite (Him e' Ez Ej Hp'). exact Hm.
Qed.
