(** * Nano rendering: how much intensity reaches the image (C74). *)
From Verif Require Import Vec Spec MMotion MLaue MMesh MScattering MStrain MBeam MPolycrystal SPolycrystal MDetector SDetector.
From Verif Require Import MRender SRender SNano PLaue PScattering PBeam PDetector PDetector2 PDetector3 PDetector4 PRender PRender2 PRender2b PRenderEx PRender3 PKernel PKernel2 PKernel3 PMacro PNano PNanoEx.
From Coq Require Import Permutation FunctionalExtensionality.
Open Scope R_scope.
Local Notation len := List.length.

(** ** Shape of the raw image for arbitrary batches *)
Lemma radius_bounds d x R : airy_radius d x = Ok R -> 8 <= R <= 128.
Proof.
  assert (G : forall fuel s t r, 8 <= r -> 8 <= airy_radius_loop s t r fuel).
  { induction fuel; intros s t r Hr; cbn [airy_radius_loop]; auto. destruct (Rle_dec r 128); auto. destruct (nlt _ _); auto. apply IHfuel. lra. }
  unfold airy_radius. destruct x as [x| | |]; intros H; try discriminate.
  - cbv zeta in H. set (q := airy_radius_loop _ _ _ _) in H. assert (8 <= q) by (apply G, Rmax_r). destruct (Rlt_dec 128 q); inversion H; subst; lra.
  - inversion H; lra.
  - cbv zeta in H. set (q := airy_radius_loop _ _ _ _) in H. assert (8 <= q) by (apply G; lra). destruct (Rlt_dec 128 q); inversion H; subst; lra.
Qed.
Lemma airy_kernels_inv z j1 d psf rows ks : airy_kernels z j1 d psf rows = Ok ks ->
  exists R m, 8 <= R <= 128 /\ ks = map (fun r => pad_to m (fst (airy_kernel z j1 d psf R (first_zero z d r)))) rows.
Proof.
  unfold airy_kernels. destruct (airy_radius _ _) as [R|] eqn:ER; [|discriminate]. apply radius_bounds in ER. cbn [bind]. cbv zeta. rewrite !map_map. set (m := fold_right _ _ _). intros H.
  exists R, m. split; auto. destruct rows as [|r rows]; cbn [map] in *; [now inversion H|]. destruct (forallb _ _); [now inversion H|discriminate].
Qed.
Lemma combine_map_r {A B} (K : A -> B) (l : list A) : combine l (map K l) = map (fun r => (r, K r)) l.
Proof. induction l; cbn; auto. now rewrite IHl. Qed.
Definition row_kernel (z : bool) (j1 : R -> R) (d : detector) (psf : kernel) (rk : list num * kernel) : Prop :=
  exists R m, 8 <= R <= 128 /\ snd rk = pad_to m (fst (airy_kernel z j1 d psf R (first_zero z d (fst rk)))).
Definition part (d : detector) (f i j : nat) (rk : list num * kernel) : num :=
  if Reqb (fcol (fst rk) 28) (INR f) then pix (d_nz d) (d_ny d) f i j (pos_z d (fst rk)) (pos_y d (fst rk)) (kscale (peak_intensity (fst rk)) (snd rk)) else Fin 0.
Lemma loop_items z j1 d psf n bs : forall im im', f_n im = n -> f_h im = d_nz d -> f_w im = d_ny d ->
  airy_loop z j1 d psf n im bs = Ok im' ->
  exists items, map fst items = List.concat bs /\ Forall (row_kernel z j1 d psf) items /\
    im' = Fr n (d_nz d) (d_ny d) (fun f i j => nadd (f_at im f i j) (if Nat.ltb f n then nsum (map (part d f i j) items) else Fin 0)).
Proof.
  induction bs as [|b bs IH]; intros im im' En Eh Ew H; cbn [airy_loop] in H.
  - inversion H; subst im'. exists []. split; [reflexivity|]. split; [constructor|]. destruct im as [n' h' w' at']. cbn [f_n f_h f_w f_at] in *. subst. f_equal.
    extensionality f. extensionality i. extensionality j. cbn [map]. rewrite nsum_nil. destruct (Nat.ltb f n); now rewrite nadd_0_r.
  - destruct (airy_kernels z j1 d psf b) as [ks|] eqn:Ek.
    2: { unfold airy_batch in H. rewrite Ek in H. discriminate. }
    rewrite (batch_adds _ _ _ _ _ _ _ _ En Eh Ew Ek) in H. cbn [bind] in H.
    apply airy_kernels_inv in Ek as (R & m & HR & ->).
    rewrite combine_map_r in H.
    apply IH in H as (items & Hm & Hk & ->); try reflexivity.
    exists (map (fun r => (r, pad_to m (fst (airy_kernel z j1 d psf R (first_zero z d r))))) b ++ items). split; [|split].
    + rewrite map_app, map_map. cbn [fst List.concat]. rewrite map_id. now f_equal.
    + apply Forall_app. split; [|exact Hk]. apply Forall_forall. intros rk Hrk. apply in_map_iff in Hrk as (r & <- & _). exists R, m. split; [exact HR|reflexivity].
    + f_equal. extensionality f. extensionality i. extensionality j. cbn [f_at]. rewrite <- nadd_assoc. f_equal.
      destruct (Nat.ltb f n); cbn [andb].
      * rewrite map_app, nsum_app. reflexivity.
      * rewrite nsum_zero by reflexivity. apply nadd_0_l.
Qed.
Lemma nano_items e d pd frames ml mi im out : fresh pd -> permutes (re_argsort e) ->
  render e d pd frames "nano" ml mi = Ok (im, out) -> pd_peaks out <> [] ->
  exists psf items, psf_kernel d = Ok psf /\ Permutation (map fst items) (pd_peaks out) /\ Forall (row_kernel (re_z e) (re_j1 e) d psf) items /\
    im = conv3 psf (Fr (Z.to_nat (nframes frames)) (d_nz d) (d_ny d) (fun f i j => if Nat.ltb f (Z.to_nat (nframes frames)) then nsum (map (part d f i j) items) else Fin 0)).
Proof.
  intros Hf Hp H Hne. apply nano_inv in H as [Ho Hm]. unfold nano_method, render_airy in Hm. destruct (pd_peaks out) as [|r0 rows] eqn:Er; [contradiction|]. rewrite <- Er in *.
  destruct (psf_kernel d) as [psf|] eqn:Ek; [|discriminate]. cbn [bind] in Hm.
  destruct (gather _ _) as [sorted|] eqn:Eg; [|discriminate]. cbn [bind] in Hm.
  apply gather_perm in Eg; [|eapply Permutation_trans; [apply Hp|]; now rewrite map_length].
  destruct (pC41_terminates _ (airy_memory (re_z e) d) (re_free_nano e * 1024^3) sorted) as (bs & Eb & Ec & _). rewrite Eb in Hm.
  destruct (airy_loop _ _ _ _ _ _ _) as [raw|] eqn:El; [|discriminate]. cbn [bind] in Hm. inversion Hm; subst im; clear Hm.
  apply loop_items in El as (items & E1 & E2 & ->); try reflexivity. exists psf, items. split; auto. split; [rewrite E1, Ec; exact Eg|]. split; auto.
  f_equal. f_equal. extensionality f. extensionality i. extensionality j. cbn [zeros3 f_at]. now rewrite nadd_0_l.
Qed.
(** ** A kernel is a density of total at most 1, or entirely NaN *)
Definition density (k : kernel) : Prop :=
  exists g, entries k g /\ (forall a b, (a < k_n k)%nat -> (b < k_n k)%nat -> 0 <= g a b) /\ entry_total (k_n k) g <= 1.
Definition unit_kernel (k : kernel) : Prop :=
  exists g, entries k g /\ (forall a b, (a < k_n k)%nat -> (b < k_n k)%nat -> 0 <= g a b) /\ entry_total (k_n k) g = 1.
Lemma unit_density k : unit_kernel k -> density k.
Proof. intros (g & A & B & C). exists g. split; auto. split; auto. lra. Qed.
Definition void (k : kernel) : Prop := forall a b, (a < k_n k)%nat -> (b < k_n k)%nat -> k_at k a b = NaN.
Lemma entry_total_list n g : entry_total n g = sum_list (map (fun ab => g (fst ab) (snd ab)) (list_prod (seq 0 n) (seq 0 n))).
Proof. unfold entry_total. now rewrite (sum_list_prod (fun a b => g a b)). Qed.
Lemma sum_zero_each {A} (g : A -> R) l : (forall x, In x l -> 0 <= g x) -> sum_list (map g l) = 0 -> forall x, In x l -> g x = 0.
Proof.
  induction l as [|y l IH]; intros H0 Hs x Hx; [destruct Hx|]. cbn [map] in Hs. rewrite sum_list_cons in Hs.
  assert (0 <= sum_list (map g l)) by (apply sum_list_nonneg; intros v Hv; apply in_map_iff in Hv as (w & <- & Hw); apply H0; now right).
  pose proof (H0 y (or_introl eq_refl)). destruct Hx as [->|Hx]; [lra|]. apply IH; auto; [intros; apply H0; now right|lra].
Qed.
Lemma knorm_cases z k g : entries k g -> (forall a b, (a < k_n k)%nat -> (b < k_n k)%nat -> 0 <= g a b) -> unit_kernel (knorm z k) \/ void (knorm z k).
Proof.
  intros Hg H0. set (S := entry_total (k_n k) g).
  assert (HL : forall ab, In ab (list_prod (seq 0 (k_n k)) (seq 0 (k_n k))) -> 0 <= g (fst ab) (snd ab)).
  { intros [a b] Hab. apply in_prod_iff in Hab as [A B]. apply in_seq in A, B. cbn [fst snd]; apply H0; lia. }
  assert (HS : 0 <= S) by (unfold S; rewrite entry_total_list; apply sum_list_nonneg; intros x Hx; apply in_map_iff in Hx as (ab & <- & Hab); auto).
  destruct (Req_dec S 0) as [E|E].
  - right. intros a b Ha Hb. cbn [knorm k_at k_n] in *. rewrite (ksum_entries k g Hg). fold S. rewrite E, Hg by auto.
    unfold S in E. rewrite entry_total_list in E. pose proof (sum_zero_each _ _ HL E (a, b)) as Z0. cbn [fst snd] in Z0. rewrite Z0 by (apply in_prod; apply in_seq; lia).
    cbn. destruct (Req_EM_T 0 0); [reflexivity|lra].
  - left. exists (fun a b => g a b / S). split; [|split].
    + intros a b Ha Hb. cbn [knorm k_at k_n] in *. rewrite (ksum_entries k g Hg), Hg by auto. fold S. now apply ndiv_fin.
    + intros a b Ha Hb. cbn [knorm k_n] in *. apply Rmult_le_pos; auto. left. apply Rinv_0_lt_compat. lra.
    + cbn [knorm k_n]. rewrite (entry_total_ext _ _ (fun a b => / S * g a b)) by (intros; unfold Rdiv; ring). rewrite entry_total_scal. fold S. field. lra.
Qed.
Lemma window_range k c : (fst (window k c) + snd (window k c) <= k_n k)%nat.
Proof.
  unfold window, slice. cbv zeta. cbn [fst snd]. set (h := Z.of_nat (k_n k / 2)). assert (Z.of_nat (k_n k / 2) <= Z.of_nat (k_n k))%Z by (apply inj_le, Nat.div_le_upper_bound; lia). fold h in H.
  destruct (Z.ltb_spec (h - Z.of_nat c) 0), (Z.ltb_spec (h + Z.of_nat c + 1) 0); lia.
Qed.
Lemma crop_density k c : density k -> density (crop k c).
Proof.
  pose proof (window_range k c) as W. unfold crop. set (s := fst (window k c)) in *. set (n := snd (window k c)) in *. clearbody s n.
  intros (g & He & H0 & Ht).
  - exists (fun a b => g (s + a)%nat (s + b)%nat). cbn [k_n]. split; [|split].
    + intros a b Ha Hb. cbn [k_n k_at] in *. apply He; lia.
    + intros a b Ha Hb. apply H0; lia.
    + eapply Rle_trans; [|exact Ht]. pose (g' := fun ab : nat * nat => if (Nat.ltb (fst ab) (k_n k) && Nat.ltb (snd ab) (k_n k))%bool then g (fst ab) (snd ab) else 0).
      assert (P : forall ab, 0 <= g' ab).
      { intros [a b]. unfold g'. cbn [fst snd]. destruct (Nat.ltb_spec a (k_n k)); cbn [andb]; [|lra]. destruct (Nat.ltb_spec b (k_n k)); [|lra]. auto. }
      assert (Q : forall a b, (a < k_n k)%nat -> (b < k_n k)%nat -> g a b = g' (a, b)).
      { intros a b Ha Hb. unfold g'. cbn [fst snd]. destruct (Nat.ltb_spec a (k_n k)); [|lia]. destruct (Nat.ltb_spec b (k_n k)); [|lia]. reflexivity. }
      rewrite !entry_total_list. rewrite (sum_list_ext (fun ab => g (fst ab) (snd ab)) g'); [|intros [a b] Hab; apply in_prod_iff in Hab as [A B]; apply in_seq in A, B; apply Q; lia].
      rewrite (sum_list_ext _ (fun ab => g' ((s + fst ab)%nat, (s + snd ab)%nat))) by (intros [a b] Hab; apply in_prod_iff in Hab as [A B]; apply in_seq in A, B; apply Q; cbn [fst snd]; lia).
      rewrite <- (map_map (fun ab : nat * nat => ((s + fst ab)%nat, (s + snd ab)%nat)) g'). apply sum_incl_le; auto.
      * apply FinFun.Injective_map_NoDup; [|apply NoDup_prod; apply seq_NoDup]. intros [a b] [a' b'] E. cbn [fst snd] in E. inversion E. f_equal; lia.
      * intros ab Hab. apply in_map_iff in Hab as ([a b] & <- & Hab). apply in_prod_iff in Hab as [A B]. apply in_seq in A, B. cbn [fst snd]. apply in_prod; apply in_seq; lia.
Qed.
Lemma crop_cases k c : (density k \/ void k) -> density (crop k c) \/ void (crop k c).
Proof.
  intros [D|V]; [left; now apply crop_density|]. right. pose proof (window_range k c) as W. intros a b Ha Hb. cbn [crop k_n k_at] in *. apply V; lia.
Qed.
Lemma profile_fin z j1 x s r : 0 < x -> s <> 0 -> exists v, airy_profile z j1 (Fin x) s r = Fin v /\ 0 <= v.
Proof.
  intros Hx Hs. unfold airy_profile. cbv zeta.
  assert (A : exists v, (match (if Req_EM_T r 0 then Fin (/ 10^10) else ndiv z (Fin (38317/10000 * r)) (Fin x)) with Fin y => if Rlt_dec (Rabs y) (/ 10^8) then Fin 1 else Fin ((2 * j1 y / y)^2) | _ => NaN end) = Fin v /\ 0 <= v).
  { destruct (Req_EM_T r 0); [|rewrite ndiv_fin by lra]; (destruct (Rlt_dec _ _); eexists; split; [reflexivity| |reflexivity|]; [lra|apply pow2_ge_0]). }
  destruct A as (v & -> & Hv). destruct (nlt _ _); [|now exists v]. rewrite gexp_val by auto. cbn [nmul]. eexists. split; [reflexivity|]. apply Rmult_le_pos; auto. left. apply exp_pos.
Qed.
Definition full_kernel (z : bool) (j1 : R -> R) (d : detector) (psf : kernel) (R : R) (fz : num) : kernel :=
  knorm z (if nlt fz (Fin (1/2)) then psf else airy_grid z j1 d R fz).
Lemma full_cases z j1 d psf R x : d_sigma d <> 0 -> (0 <= d_max_radius d)%Z -> psf_kernel d = Ok psf ->
  unit_kernel (full_kernel z j1 d psf R (Fin x)) \/ void (full_kernel z j1 d psf R (Fin x)).
Proof.
  intros Hs Hm Hk. unfold full_kernel. cbn [nlt]. destruct (Rltb x (1/2)) eqn:E.
  - destruct (pC46_kernel d Hs Hm) as (k & g & Hk' & He & _ & Hpos & _). rewrite Hk in Hk'. inversion Hk'; subst k.
    apply (knorm_cases z psf g He). intros. left. auto.
  - apply Rltb_false in E. 
    apply (knorm_cases z _ (fun a b => fval (k_at (airy_grid z j1 d R (Fin x)) a b))).
    + intros a b _ _. unfold airy_grid. cbn [k_at]. destruct (profile_fin z j1 x (d_sigma d) (sqrt ((- R + INR a)^2 + (- R + INR b)^2))) as (v & -> & _); auto; lra.
    + intros a b _ _. unfold airy_grid. cbn [k_at]. destruct (profile_fin z j1 x (d_sigma d) (sqrt ((- R + INR a)^2 + (- R + INR b)^2))) as (v & -> & Hv); auto; lra.
Qed.
Lemma airy_kernel_cases z j1 d psf R x : d_sigma d <> 0 -> (0 <= d_max_radius d)%Z -> psf_kernel d = Ok psf ->
  density (fst (airy_kernel z j1 d psf R (Fin x))) \/ void (fst (airy_kernel z j1 d psf R (Fin x))).
Proof.
  intros Hs Hm Hk. unfold airy_kernel. cbn [fst]. apply crop_cases. destruct (full_cases z j1 d psf R x Hs Hm Hk); [left; now apply unit_density|now right].
Qed.
(** ** One row *)
Lemma kernel_deps_in h w f n zc yc k : (f < n)%nat -> Forall (dep_in n h w) (kernel_deposits h w (Z.of_nat f) zc yc k).
Proof.
  intros Hf. apply Forall_forall. intros dp Hin. unfold kernel_deposits in Hin. cbv zeta in Hin. apply in_concat in Hin as (l & Hl & Hin). apply in_map_iff in Hl as (ab & <- & _).
  pose proof (bilinear_in h w f n (zc + (INR (fst ab) - INR (k_n k / 2))) (yc + (INR (snd ab) - INR (k_n k / 2))) (k_at k (fst ab) (snd ab)) Hf) as HB. rewrite Forall_forall in HB. auto.
Qed.
Lemma kernel_deps_frame h w f zc yc k dp : In dp (kernel_deposits h w f zc yc k) -> dep_frame dp = f.
Proof.
  intros Hin. unfold kernel_deposits in Hin. cbv zeta in Hin. apply in_concat in Hin as (l & Hl & Hin). apply in_map_iff in Hl as (ab & <- & _).
  unfold bilinear in Hin. cbv zeta in Hin. apply filter_In in Hin as [Hin _]. destruct Hin as [<-|[<-|[<-|[<-|[]]]]]; reflexivity.
Qed.
(** Sum of a row's contribution over the image: the sum of its deposits. *)
Lemma pix_total h w f zc yc k : nsum (map (fun ij => pix h w f (fst ij) (snd ij) zc yc k) (list_prod (seq 0 h) (seq 0 w))) = nsum (map dep_val (kernel_deposits h w (Z.of_nat f) zc yc k)).
Proof.
  pose proof (kernel_deps_in h w f (S f) zc yc k ltac:(lia)) as HF.
  transitivity (frame_total (Fr (S f) h w (fun f i j => nsum (map (fun dp => if hit f i j dp then snd dp else Fin 0) (kernel_deposits h w (Z.of_nat f) zc yc k)))) f); [reflexivity|].
  unfold frame_total. cbn [f_h f_w f_at]. rewrite (nsum_swap (fun ij dp => if hit f (fst ij) (snd ij) dp then snd dp else Fin 0)). apply nsum_ext. intros dp Hin.
  rewrite Forall_forall in HF. rewrite (hit_total (S f) h w f dp (HF dp Hin)). pose proof (kernel_deps_frame _ _ _ _ _ _ _ Hin) as E. destruct dp as [[[a b] c] v]. cbn in E. subst a.
  unfold in_frame. rewrite Z.eqb_refl. reflexivity.
Qed.
Lemma dep_nonneg h w f zc yc k g : entries k g -> (forall a b, (a < k_n k)%nat -> (b < k_n k)%nat -> 0 <= g a b) ->
  forall dp, In dp (kernel_deposits h w f zc yc k) -> exists v, snd dp = Fin v /\ 0 <= v.
Proof.
  intros He H0 dp Hin. unfold kernel_deposits in Hin. cbv zeta in Hin. apply in_concat in Hin as (l & Hl & Hin). apply in_map_iff in Hl as ([a b] & <- & Hab).
  apply in_prod_iff in Hab as [A B]. apply in_seq in A, B. cbn [fst snd] in Hin. rewrite He in Hin by lia. specialize (H0 a b ltac:(lia) ltac:(lia)).
  set (zc' := zc + _) in Hin. set (yc' := yc + _) in Hin. clearbody zc' yc'.
  unfold bilinear in Hin. cbv zeta in Hin. destruct (base_Int_part zc') as [P1 P2]. destruct (base_Int_part yc') as [P3 P4].
  set (fz := zc' - IZR (Int_part zc')) in *. set (fy := yc' - IZR (Int_part yc')) in *. assert (0 <= fz <= 1) by (unfold fz; lra). assert (0 <= fy <= 1) by (unfold fy; lra).
  apply filter_In in Hin as [Hin _]. cbn [nmul] in Hin. destruct Hin as [<-|[<-|[<-|[<-|[]]]]]; cbn [snd]; eexists; (split; [reflexivity|]); repeat apply Rmult_le_pos; lra.
Qed.
Lemma pix_density h w f zc yc k s : density k -> 0 <= s ->
  (forall i j, exists v, pix h w f i j zc yc (kscale (Fin s) k) = Fin v /\ 0 <= v) /\
  exists t, nsum (map (fun ij => pix h w f (fst ij) (snd ij) zc yc (kscale (Fin s) k)) (list_prod (seq 0 h) (seq 0 w))) = Fin t /\ 0 <= t <= s.
Proof.
  intros (g & He & H0 & Ht) Hs.
  assert (He' : entries (kscale (Fin s) k) (fun a b => s * g a b)).
  { intros a b Ha Hb. cbn [kscale k_n k_at] in *. rewrite He by auto. cbn [nmul]. f_equal. ring. }
  assert (H0' : forall a b, (a < k_n (kscale (Fin s) k))%nat -> (b < k_n (kscale (Fin s) k))%nat -> 0 <= s * g a b).
  { intros a b Ha Hb. cbn [kscale k_n] in *. apply Rmult_le_pos; auto. }
  split.
  - intros i j. unfold pix. pose proof (dep_nonneg h w (Z.of_nat f) zc yc _ _ He' H0') as D.
    rewrite (nsum_fin_map _ (fun dp => if hit f i j dp then fval (snd dp) else 0)).
    + eexists. split; [reflexivity|]. apply sum_list_nonneg. intros x Hx. apply in_map_iff in Hx as (dp & <- & Hdp). destruct (hit f i j dp); [|lra].
      destruct (D dp Hdp) as (v & -> & Hv). exact Hv.
    + intros dp Hdp. destruct (hit f i j dp); auto. destruct (D dp Hdp) as (v & -> & _). reflexivity.
  - rewrite pix_total. unfold kernel_deposits. cbv zeta. rewrite nsum_concat_map. unfold grid.
    rewrite (nsum_prod (fun a b => nsum (map dep_val (bilinear h w (Z.of_nat f) (zc + (INR a - INR (k_n (kscale (Fin s) k) / 2))) (yc + (INR b - INR (k_n (kscale (Fin s) k) / 2))) (k_at (kscale (Fin s) k) a b))))).
    set (n := k_n (kscale (Fin s) k)) in *.
    set (B := fun a b : nat => nsum (map dep_val (bilinear h w (Z.of_nat f) (zc + (INR a - INR (n / 2))) (yc + (INR b - INR (n / 2))) (k_at (kscale (Fin s) k) a b)))).
    change (exists t, nsum (map (fun a => nsum (map (B a) (seq 0 n))) (seq 0 n)) = Fin t /\ 0 <= t <= s).
    assert (HB : forall a b, (a < n)%nat -> (b < n)%nat -> exists t, B a b = Fin t /\ 0 <= t <= s * g a b).
    { intros a b Ha Hb. unfold B. rewrite He' by auto. apply pC45_border_loses_only. auto. }
    set (T := fun a b => fval (B a b)).
    assert (HT : forall a b, (a < n)%nat -> (b < n)%nat -> B a b = Fin (T a b) /\ 0 <= T a b <= s * g a b).
    { intros a b Ha Hb. unfold T. destruct (HB a b Ha Hb) as (t & -> & Hr). auto. }
    rewrite (nsum_fin_map _ (fun a => sum_list (map (T a) (seq 0 n)))).
    2: { intros a Ha. apply in_seq in Ha. apply nsum_fin_map. intros b Hb. apply in_seq in Hb. apply HT; lia. }
    eexists. split; [reflexivity|]. split.
    + apply sum_list_nonneg. intros x Hx. apply in_map_iff in Hx as (a & <- & Ha). apply in_seq in Ha. apply sum_list_nonneg. intros x Hx. apply in_map_iff in Hx as (b & <- & Hb). apply in_seq in Hb. apply HT; lia.
    + apply Rle_trans with (entry_total n (fun a b => s * g a b)).
      * unfold entry_total. apply sum_list_le_map. intros a Ha. apply in_seq in Ha. apply sum_list_le_map. intros b Hb. apply in_seq in Hb. apply HT; lia.
      * rewrite entry_total_scal. change n with (k_n k). replace s with (s * 1) at 2 by ring. now apply Rmult_le_compat_l.
Qed.
Lemma pix_void h w f i j zc yc k s : void k -> is_finite (pix h w f i j zc yc (kscale s k)) = true -> pix h w f i j zc yc (kscale s k) = Fin 0.
Proof.
  intros V H. unfold pix in *. apply nsum_zero. intros dp Hdp. destruct (hit f i j dp) eqn:E; auto. exfalso.
  assert (N : snd dp = NaN).
  { unfold kernel_deposits in Hdp. cbv zeta in Hdp. apply in_concat in Hdp as (l & Hl & Hin). apply in_map_iff in Hl as ([a b] & <- & Hab). apply in_prod_iff in Hab as [A B]. apply in_seq in A, B.
    cbn [kscale k_n k_at fst snd] in Hin. rewrite V in Hin by (cbn [kscale k_n] in *; lia). unfold bilinear in Hin. cbv zeta in Hin. apply filter_In in Hin as [Hin _].
    assert (M : forall x, nmul NaN x = NaN) by (intros []; reflexivity). rewrite !M in Hin. destruct Hin as [<-|[<-|[<-|[<-|[]]]]]; reflexivity. }
  rewrite nsum_nan in H; [discriminate|]. apply in_map_iff. exists dp. rewrite E. auto.
Qed.
(** ** The total of a frame *)
Lemma nadd_finite a b : is_finite (nadd a b) = true -> is_finite a = true /\ is_finite b = true.
Proof. destruct a, b; cbn; auto; discriminate. Qed.
Lemma nsum_each_finite {A} (g : A -> num) l : is_finite (nsum (map g l)) = true -> forall x, In x l -> is_finite (g x) = true.
Proof.
  induction l as [|y l IH]; intros H x Hx; [destruct Hx|]. cbn [map] in H. rewrite nsum_cons in H. apply nadd_finite in H as [H1 H2].
  destruct Hx as [->|Hx]; auto.
Qed.
Lemma conv_finite k kg h w f i j : entries k kg -> (forall a b, 0 < kg a b) -> (0 < k_n k)%nat -> (i < h)%nat -> (j < w)%nat ->
  is_finite (conv2 k h w f i j) = true -> is_finite (f i j) = true.
Proof.
  intros He Hp Hn Hi Hj H. unfold conv2 in H. cbv zeta in H. set (c := (k_n k / 2)%nat) in *.
  assert (Hc : (c < k_n k)%nat) by (apply Nat.div_lt; lia).
  pose proof (nsum_each_finite _ _ H (c, c)) as T. cbn [fst snd] in T.
  assert (Hin : In (c, c) (grid (seq 0 (k_n k)))) by (unfold grid; apply in_prod; apply in_seq; lia). specialize (T Hin).
  rewrite He in T by auto. unfold padded in T.
  replace (Z.of_nat i + Z.of_nat c - Z.of_nat c)%Z with (Z.of_nat i) in T by lia. replace (Z.of_nat j + Z.of_nat c - Z.of_nat c)%Z with (Z.of_nat j) in T by lia.
  match type of T with context[if ?q then _ else _] => replace q with true in T end.
  - rewrite !Nat2Z.id in T. specialize (Hp c c). set (q := kg c c) in *. clearbody q. clear - T Hp. destruct (f i j); auto; unfold nmul, nsign_inf in T; repeat (match type of T with context[if ?u then _ else _] => destruct u end); cbn in T; discriminate.
  - symmetry. repeat (apply andb_true_iff; split); try apply Z.leb_le; try apply Z.ltb_lt; lia.
Qed.
Lemma nsum_const_if {A} (c : A -> bool) (g : A -> R) l : sum_list (map (fun x => if c x then g x else 0) l) = sum_list (map g (filter c l)).
Proof. induction l as [|x l IH]; cbn [map filter]; auto. rewrite sum_list_cons, IH. destruct (c x); cbn [map]; rewrite ?sum_list_cons; ring. Qed.

Lemma sum_perm l l' : Permutation l l' -> sum_list l = sum_list l'.
Proof. induction 1; rewrite ?sum_list_cons; try congruence; try (rewrite IHPermutation; ring); ring. Qed.
Lemma item_bound z j1 d psf rk x s f : d_sigma d <> 0 -> (0 <= d_max_radius d)%Z -> psf_kernel d = Ok psf ->
  row_kernel z j1 d psf rk -> first_zero z d (fst rk) = Fin x -> peak_intensity (fst rk) = Fin s -> 0 <= s ->
  (forall i j, (i < d_nz d)%nat -> (j < d_ny d)%nat -> is_finite (part d f i j rk) = true) ->
  (forall i j, (i < d_nz d)%nat -> (j < d_ny d)%nat -> exists v, part d f i j rk = Fin v /\ 0 <= v) /\
  exists t, nsum (map (fun ij => part d f (fst ij) (snd ij) rk) (list_prod (seq 0 (d_nz d)) (seq 0 (d_ny d)))) = Fin t /\ 0 <= t <= (if Reqb (fcol (fst rk) 28) (INR f) then s else 0).
Proof.
  intros Hs Hm Hk (R & m & _ & E) Ex Ei H0 Hfin. rewrite Ex in E. unfold part in *. destruct (Reqb _ _).
  2: { split; [intros; exists 0; split; auto; lra|]. exists 0. split; [apply nsum_zero; reflexivity|lra]. }
  rewrite Ei, E in *. set (K := fst (airy_kernel z j1 d psf R (Fin x))) in *.
  destruct (airy_kernel_cases z j1 d psf R x Hs Hm Hk) as [D|V].
  - destruct (pix_density (d_nz d) (d_ny d) f (pos_z d (fst rk)) (pos_y d (fst rk)) K s D H0) as [P (t & Q & B)]. split.
    + intros i j _ _. rewrite pix_pad. apply P.
    + exists t. split; auto. rewrite <- Q. apply nsum_ext. intros ij _. apply pix_pad.
  - assert (Z0 : forall i j, (i < d_nz d)%nat -> (j < d_ny d)%nat -> pix (d_nz d) (d_ny d) f i j (pos_z d (fst rk)) (pos_y d (fst rk)) (kscale (Fin s) (pad_to m K)) = Fin 0).
    { intros i j Hi Hj. rewrite pix_pad. apply pix_void; [exact V|]. rewrite <- (pix_pad _ _ _ _ _ _ _ m). auto. }
    split; [intros i j Hi Hj; exists 0; split; [auto|lra]|]. exists 0. split; [|lra]. apply nsum_zero. intros [i j] Hij. apply in_prod_iff in Hij as [A B]. apply in_seq in A, B. cbn [fst snd]; apply Z0; lia.
Qed.
(** An image rendered with method 'nano' contains at most the scattering strength of the
    peaks of each frame, whenever the sum of the frame is a number. *)
Lemma pC74_total_bounded : forall e d pd frames ml mi im out f T, fresh pd -> volumes_ok pd -> 0 < d_pz d -> d_sigma d <> 0 -> (0 <= d_max_radius d)%Z ->
  permutes (re_argsort e) -> render e d pd frames "nano" ml mi = Ok (im, out) ->
  (forall r, In r (pd_peaks out) -> proper_disc out r) -> (f < f_n im)%nat -> frame_total im f = Fin T ->
  0 <= T <= sum_list (map (strength out) (rows_in_frame out f)).
Proof.
  intros e d pd frames ml mi im out f T Hf Hv Pz Hs Hm Hp H Hd Hfn HT. pose proof (render_inv _ _ _ _ _ _ _ _ _ H) as Ho. pose proof (nframes_ge frames) as Hn.
  pose proof (out_columns _ _ _ _ _ Hf Ho) as Hc.
  pose proof (nano_inv _ _ _ _ _ _ _ _ H) as [_ Hme].
  assert (HS : forall r, In r (rows_in_frame out f) -> 0 <= strength out r).
  { intros r Hr. apply filter_In in Hr as [Hr _]. exact (strength_nonneg _ _ _ _ _ _ Hf Hv Hn Ho Hr). }
  destruct (pd_peaks out) as [|r0 rows] eqn:Er.
  { assert (E0 : frame_total im f = Fin 0).
    { unfold nano_method, render_airy in Hme. inversion Hme; subst im. apply nsum_zero. reflexivity. }
    rewrite HT in E0. inversion E0. unfold rows_in_frame. rewrite Er. cbn [filter map]. rewrite sum_list_nil. lra. }
  rewrite <- Er in *. assert (Hne : pd_peaks out <> []) by (rewrite Er; discriminate).
  destruct (nano_items e d pd frames ml mi im out Hf Hp H Hne) as (psf & items & Hk & HP & HI & ->).
  set (n := Z.to_nat (nframes frames)) in *. cbn [conv3 f_n] in Hfn.
  set (raw := Fr n (d_nz d) (d_ny d) _) in *.
  destruct (pC46_kernel d Hs Hm) as (k & kg & Hk' & He & Hkn & Hpos & _). rewrite Hk in Hk'. inversion Hk'; subst k. clear Hk'.
  assert (Hkn0 : (0 < k_n psf)%nat) by (rewrite Hkn; pose proof (psf_radius_nonneg d Hm); lia).
  assert (RF : forall i j, (i < d_nz d)%nat -> (j < d_ny d)%nat -> is_finite (f_at raw f i j) = true).
  { intros i j Hi Hj. apply (conv_finite psf kg (d_nz d) (d_ny d) (f_at raw f) i j He Hpos Hkn0 Hi Hj).
    change (conv2 psf (d_nz d) (d_ny d) (f_at raw f) i j) with ((fun ij => f_at (conv3 psf raw) f (fst ij) (snd ij)) (i, j)).
    apply (nsum_each_finite _ (list_prod (seq 0 (d_nz d)) (seq 0 (d_ny d)))).
    - change (is_finite (frame_total (conv3 psf raw) f) = true). now rewrite HT.
    - apply in_prod; apply in_seq; lia. }
  assert (RE : forall i j, f_at raw f i j = nsum (map (part d f i j) items)).
  { intros i j. unfold raw. cbn [f_at]. destruct (Nat.ltb_spec f n); [reflexivity|lia]. }
  assert (RI : forall rk, In rk items -> (forall i j, (i < d_nz d)%nat -> (j < d_ny d)%nat -> exists v, part d f i j rk = Fin v /\ 0 <= v) /\
    exists t, nsum (map (fun ij => part d f (fst ij) (snd ij) rk) (list_prod (seq 0 (d_nz d)) (seq 0 (d_ny d)))) = Fin t /\ 0 <= t <= (if Reqb (fcol (fst rk) 28) (INR f) then strength out (fst rk) else 0)).
  { intros rk Hrk. assert (Hin : In (fst rk) (pd_peaks out)) by (apply (Permutation_in _ HP); now apply in_map).
    destruct (projected_prow _ _ _ _ _ _ Hf Hn Ho Hin) as (q & zd & yd & i & P). destruct (volumes_out _ _ _ _ _ _ Hf Hv Ho Hin) as (v & Ev & _).
    destruct (out_reads _ _ _ _ _ _ Hf Hn Ho Hin) as (_ & _ & _ & E4 & E5 & _).
    assert (Es : peak_intensity (fst rk) = Fin (strength out (fst rk))).
    { unfold strength. rewrite E4, E5. unfold fcol, peak_intensity. rewrite (pr_i _ _ _ _ _ _ _ P), Ev. reflexivity. }
    rewrite Forall_forall in HI. apply (item_bound (re_z e) (re_j1 e) d psf rk (disc_radius d out (fst rk)) _ f Hs Hm Hk (HI rk Hrk)).
    - apply first_zero_val; auto. apply (pr_len _ _ _ _ _ _ _ P).
    - exact Es.
    - exact (strength_nonneg _ _ _ _ _ _ Hf Hv Hn Ho Hin).
    - intros i' j' Hi Hj. specialize (RF i' j' Hi Hj). rewrite RE in RF. exact (nsum_each_finite _ _ RF rk Hrk). }
  assert (Hfn' : (f < f_n raw)%nat) by exact Hfn.
  destruct (pC46_convolution_loses_only d psf raw f Hs Hm Hk Hfn') as (t & t' & Et & Et' & Hb).
  { intros i j (_ & Hi & Hj). cbn [raw f_h f_w] in Hi, Hj. rewrite RE.
    rewrite (nsum_fin_map _ (fun rk => fval (part d f i j rk))).
    - eexists. split; [reflexivity|]. apply sum_list_nonneg. intros y Hy. apply in_map_iff in Hy as (rk & <- & Hrk). destruct (RI rk Hrk) as [A _]. destruct (A i j Hi Hj) as (v & -> & Hv0). exact Hv0.
    - intros rk Hrk. destruct (RI rk Hrk) as [A _]. destruct (A i j Hi Hj) as (v & -> & _). reflexivity. }
  rewrite HT in Et'. inversion Et'; subst t'. split; [lra|]. apply Rle_trans with t; [lra|].
  assert (ET : frame_total raw f = Fin (sum_list (map (fun rk => fval (nsum (map (fun ij => part d f (fst ij) (snd ij) rk) (list_prod (seq 0 (d_nz d)) (seq 0 (d_ny d)))))) items))).
  { unfold frame_total. change (f_h raw) with (d_nz d). change (f_w raw) with (d_ny d).
    rewrite (nsum_ext _ (fun ij => nsum (map (part d f (fst ij) (snd ij)) items))) by (intros; apply RE).
    rewrite (nsum_swap (fun ij rk => part d f (fst ij) (snd ij) rk)). apply nsum_fin_map. intros rk Hrk. destruct (RI rk Hrk) as [_ (v & -> & _)]. reflexivity. }
  rewrite Et in ET. apply (f_equal fval) in ET. cbn [fval] in ET. rewrite ET.
  apply Rle_trans with (sum_list (map (fun r => if Reqb (fcol r 28) (INR f) then strength out r else 0) (map fst items))).
  - rewrite map_map. apply sum_list_le_map. intros rk Hrk. destruct (RI rk Hrk) as [_ (v & -> & _ & Hle)]. exact Hle.
  - rewrite (sum_perm _ (map (fun r => if Reqb (fcol r 28) (INR f) then strength out r else 0) (pd_peaks out))) by now apply Permutation_map.
    rewrite nsum_const_if. right. unfold rows_in_frame. f_equal. f_equal. apply filter_ext_in. intros r Hr.
    destruct (out_reads _ _ _ _ _ _ Hf Hn Ho Hr) as (-> & _). reflexivity.
Qed.
