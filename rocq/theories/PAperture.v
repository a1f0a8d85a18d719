(** * What the illuminated region of the beam does (C95). *)
From Coq Require Import Permutation.
From Verif Require Import Vec Spec MMotion MLaue MMesh MScattering MStrain MBeam SBeam MPolycrystal SPolycrystal MDetector MClip MRender SRender SEnd SAperture.
From Verif Require Import PMotion PLaue PMesh PBeam PStrain PPolycrystal PPolycrystal2 PPolycrystal3 PDetector PDetector2 PDetector3 PRender PRender2 PRender3 PEvents PEnd PEnd2 PJoin PJoin2 PJoin3 PFrame4 PNumber4.
From Verif Require Import SDetector.
Open Scope list_scope. Open Scope R_scope.
Local Notation len := List.length.

(** ** The rows before the region is applied *)
Lemma compute_same z p phs b b2 m : same_xrays b b2 -> compute_peaks z p phs b2 m = compute_peaks z p phs b m.
Proof. intros (E1 & E2 & E3). unfold compute_peaks. rewrite E1, E2, E3. reflexivity. Qed.
Lemma full24_same z p b b2 m l : same_xrays b b2 -> full24 z p b2 m l = full24 z p b m l.
Proof. intros (E1 & E2 & E3). unfold full24, full_row. rewrite E1, E2, E3. reflexivity. Qed.
Lemma setup_same x p b b2 lo hi : same_xrays b b2 -> setup_all x p b2 lo hi = setup_all x p b lo hi.
Proof. intros (E1 & E2 & E3). unfold setup_all. now rewrite E2. Qed.
Lemma compute_labels z p b m out : compute_peaks z p (pc_phases p) b m = Ok out -> exists L, Permutation out (map (full24 z p b m) L).
Proof.
  intros E. apply compute_peaks_inv in E as (rows & cents & vols & E1 & E2 & E3 & _ & Eo). subst out.
  rewrite (full_rows z p b m rows cents vols E2 E3).
  unfold rows10 in E1. destruct (traverse _ _) as [parts|] eqn:ET; cbn [bind] in E1; [|discriminate]. apply ok_inj in E1. subst rows.
  assert (NX : NoDup (map fst (combine (seq 0 (len (pc_phases p))) (pc_phases p)))).
  { assert (G : forall (l : list phase) s, map fst (combine (seq s (len l)) l) = seq s (len l)) by (induction l; intros; cbn; congruence).
    rewrite G. apply seq_NoDup. }
  destruct (phases_labels _ _ _ _ NX _ ET) as (L1 & L2 & P & _). exists (L1 ++ L2). rewrite P, map_map. erewrite map_ext; [reflexivity|]. intros l. apply full24_of.
Qed.
(** two calls: one list of rows *)
Lemma two_calls z x p b b2 m lo hi : same_xrays b b2 -> let q := setup_all x p b lo hi in
  snd (diffract z x p b m lo hi None) = q /\ snd (diffract z x p b2 m lo hi None) = q /\
  (forall e, fst (diffract z x p b m lo hi None) = Err e <-> fst (diffract z x p b2 m lo hi None) = Err e) /\
  forall pd, fst (diffract z x p b m lo hi None) = Ok pd -> exists out L pd2, fst (diffract z x p b2 m lo hi None) = Ok pd2 /\
    Permutation out (map (full24 z q b m) L) /\ pd_columns pd = column_names /\ pd_columns pd2 = column_names /\
    pd_peaks pd = mapi (fun i r => r ++ [Fin (INR i)]) (filter (illuminated b) out) /\
    pd_peaks pd2 = mapi (fun i r => r ++ [Fin (INR i)]) (filter (illuminated b2) out).
Proof.
  intros X q. rewrite !diffract_none. cbv zeta. rewrite (setup_same _ _ _ _ _ _ X). fold q. rewrite (compute_same _ _ _ _ _ _ X). cbn [fst snd].
  split; [reflexivity|]. split; [reflexivity|].
  destruct (compute_peaks z q (pc_phases q) b m) as [out|e0] eqn:E; cbn [bind].
  - split; [intros; split; discriminate|]. intros pd H. apply ok_inj in H. subst pd. destruct (compute_labels _ _ _ _ _ E) as (L & P).
    exists out, L. eexists. split; [reflexivity|]. split; [exact P|]. repeat split.
  - split; [tauto|discriminate].
Qed.

(** ** Rows *)
Lemma full24_len z p b m l : len (full24 z p b m l) = 24%nat.
Proof. destruct (full24_head z p b m l) as (rest & -> & L). cbn. now rewrite L. Qed.
Lemma source_row pd r x s : pd_columns pd = column_names -> len r = 24%nat ->
  source_of pd (r ++ [x]) s <-> (ncol r 16 = Fin (vx s) /\ ncol r 17 = Fin (vy s) /\ ncol r 18 = Fin (vz s)).
Proof.
  intros E L. unfold source_of, has_vec, has, field. rewrite E. unfold ncol.
  change (index_of "Source_x" column_names) with (Some 16%nat). change (index_of "Source_y" column_names) with (Some 17%nat). change (index_of "Source_z" column_names) with (Some 18%nat). cbv iota.
  rewrite !nth_error_app1 by lia. rewrite !(nth_error_nth' r NaN) by lia.
  split; intros (A & B & C); repeat split; congruence.
Qed.
Lemma lit_source pd b r x : pd_columns pd = column_names -> len r = 24%nat -> illuminated b r = true <-> source_in pd b (r ++ [x]).
Proof.
  intros E L. unfold source_in, illuminated. split.
  - destruct (ncol r 16) as [sx| | |] eqn:E1; try discriminate. destruct (ncol r 17) as [sy| | |] eqn:E2; try discriminate. destruct (ncol r 18) as [sz| | |] eqn:E3; try discriminate.
    intros H. exists (V3 sx sy sz). split; [apply source_row; auto|]. now apply contains_iff.
  - intros ([sx sy sz] & H & I). apply source_row in H as (A & B & C); auto. cbn in A, B, C. rewrite A, B, C. now apply contains_iff.
Qed.
Lemma lit_index b r x : len r = 24%nat -> illuminated b (r ++ [x]) = illuminated b r.
Proof. intros L. unfold illuminated, ncol. now rewrite !app_nth1 by lia. Qed.
Lemma same_rows pd pd2 r x y : pd_columns pd = column_names -> pd_columns pd2 = column_names -> len r = 24%nat ->
  same_but_number pd pd2 (r ++ [x]) (r ++ [y]).
Proof.
  intros E E2 L c N. unfold field. rewrite E, E2. destruct (index_of c column_names) as [j|] eqn:Ej; [|reflexivity].
  pose proof (index_of_nth _ _ _ Ej) as H. pose proof (nth_error_lt' _ _ _ H) as Lj. change (len column_names) with 25%nat in Lj.
  assert (j <> 24%nat) by (intros ->; cbn in H; congruence). rewrite !nth_error_app1 by lia. reflexivity.
Qed.
Lemma filter_filter {A} (f g : A -> bool) l : (forall x, In x l -> g x = true -> f x = true) -> filter g (filter f l) = filter g l.
Proof.
  induction l as [|a l IH]; intros H; [reflexivity|]. cbn [filter]. rewrite <- IH by (intros; apply H; auto; now right).
  destruct (f a) eqn:E; cbn [filter]; [reflexivity|]. destruct (g a) eqn:G; [|reflexivity]. rewrite (H a) in E; auto; [discriminate|now left].
Qed.
Lemma filter_mapi {A B} (F : nat -> A -> B) (g : A -> bool) (h : B -> bool) l : (forall i a, In a l -> h (F i a) = g a) ->
  Forall2 (fun b a => exists i, b = F i a) (filter h (mapi F l)) (filter g l).
Proof.
  unfold mapi. generalize 0%nat. induction l as [|a l IH]; intros k H; cbn [mapi_from filter]; [constructor|].
  rewrite H by now left. destruct (g a); [constructor; eauto|]; apply IH; intros; apply H; now right.
Qed.

(** ** C95: tables *)
(** C95. Two beams with the same X-rays: one diffract call raises exactly when the other does, with the same exception, and both
    leave the sample in the same state. *)
Lemma pC95_same_failures : forall z x p b b2 m lo hi, same_xrays b b2 ->
  (forall e, fst (diffract z x p b m lo hi None) = Err e <-> fst (diffract z x p b2 m lo hi None) = Err e) /\
  snd (diffract z x p b m lo hi None) = snd (diffract z x p b2 m lo hi None).
Proof. intros z x p b b2 m lo hi X. destruct (two_calls z x p b b2 m lo hi X) as (A & B & C & _). split; [exact C|]. now rewrite A, B. Qed.

(** C95. Narrowing the beam drops exactly the rows whose source point is outside the narrower beam; the others stay in their order,
    with the same entries, and are renumbered. *)
Lemma pC95_narrowed_table : forall z x p b b2 m lo hi pd pd2, narrower b2 b ->
  fst (diffract z x p b m lo hi None) = Ok pd -> fst (diffract z x p b2 m lo hi None) = Ok pd2 ->
  exists keep, (forall r, In r (pd_peaks pd) -> (keep r = true <-> source_in pd b2 r)) /\
    Forall2 (same_but_number pd pd2) (filter keep (pd_peaks pd)) (pd_peaks pd2).
Proof.
  intros z x p b b2 m lo hi pd pd2 (X & N) D D2. destruct (two_calls z x p b b2 m lo hi X) as (_ & _ & _ & T).
  destruct (T pd D) as (out & L & pd2' & E2 & P & C1 & C2 & T1 & T2). rewrite D2 in E2. apply ok_inj in E2. subst pd2'. clear T D D2.
  assert (LN : forall r, In r out -> len r = 24%nat).
  { intros r Hr. apply (Permutation_in _ P), in_map_iff in Hr as (l & <- & _). apply full24_len. }
  exists (illuminated b2). split.
  - intros r Hr. rewrite T1 in Hr. apply In_nth_error in Hr as (k & Hk). rewrite mapi_nth_error in Hk.
    destruct (nth_error (filter _ out) k) as [r0|] eqn:E; [|discriminate]. cbn [option_map] in Hk. assert (Er : r = r0 ++ [Fin (INR k)]) by congruence. subst r.
    apply nth_error_In, filter_In in E as [E _]. rewrite lit_index by auto. now apply lit_source; auto.
  - rewrite T1, T2. rewrite <- (filter_filter (illuminated b) (illuminated b2) out).
    2:{ intros r Hr. rewrite (lit_source pd b2 r (Fin 0)), (lit_source pd b r (Fin 0)) by auto. intros (s & S1 & S2). exists s. auto. }
    set (A := filter (illuminated b) out).
    assert (LA : forall r, In r A -> len r = 24%nat) by (intros r Hr; apply filter_In in Hr as [Hr _]; auto).
    assert (F := filter_mapi (fun i r => r ++ [Fin (INR i)]) (illuminated b2) (illuminated b2) A (fun i r Hr => lit_index b2 r (Fin (INR i)) (LA r Hr))).
    assert (G := forall2_mapi (fun i r => r ++ [Fin (INR i)]) (filter (illuminated b2) A)).
    assert (LB : forall r, In r (filter (illuminated b2) A) -> len r = 24%nat) by (intros r Hr; apply filter_In in Hr as [Hr _]; auto).
    revert F G LB. generalize (filter (illuminated b2) (mapi (fun i r => r ++ [Fin (INR i)]) A)) (filter (illuminated b2) A) (mapi (fun i r => r ++ [Fin (INR i)]) (filter (illuminated b2) A)).
    intros U V W F. revert W. induction F as [|u v U V (i & ->) F IH]; intros W G LB; inversion G as [|? w ? W' (k & ->) G']; subst; constructor.
    + apply same_rows; auto. apply LB. now left.
    + apply IH; auto. intros r Hr. apply LB. now right.
Qed.
Lemma len_filter_split {A} (f g h : A -> bool) l : (forall a, In a l -> f a = orb (g a) (h a)) -> (forall a, In a l -> andb (g a) (h a) = false) ->
  len (filter f l) = (len (filter g l) + len (filter h l))%nat.
Proof.
  induction l as [|a l IH]; intros H1 H2; [reflexivity|]. cbn [filter]. rewrite H1 by now left. specialize (H2 a (or_introl eq_refl)) as H3.
  assert (E := IH (fun x Hx => H1 x (or_intror Hx)) (fun x Hx => H2 x (or_intror Hx))).
  destruct (g a), (h a); cbn in *; try discriminate; lia.
Qed.
(** ** A beam cut in two by a plane *)
Lemma cut_same h b : same_xrays b (cut h b).
Proof. repeat split. Qed.
Lemma cut_inside h b x : strictly_inside (b_halfspaces (cut h b)) x <-> hs_val h x < 0 /\ strictly_inside (b_halfspaces b) x.
Proof.
  unfold strictly_inside. cbn [cut b_halfspaces]. split.
  - intros H. split; [apply H; now left|]. intros h' Hh. apply H. now right.
  - intros (H1 & H2) h' [<- | Hh]; auto.
Qed.
Lemma cut_contains h b x : beam_contains (b_halfspaces (cut h b)) x = (Rltb (hs_val h x) 0 && beam_contains (b_halfspaces b) x)%bool.
Proof. reflexivity. Qed.
Lemma other_val h x : hs_val (other_side h) x = - hs_val h x.
Proof. destruct h as [n d]. unfold hs_val, other_side. cbn [hs_n hs_d]. vdes. vunf. cbn. ring. Qed.
Lemma Rltb_iff a b : Rltb a b = true <-> a < b.
Proof. unfold Rltb. destruct (Rlt_dec a b); split; auto; discriminate. Qed.
Lemma cut_narrower : forall h b, narrower (cut h b) b.
Proof. intros h b. split; [apply cut_same|]. intros x H. now apply cut_inside in H. Qed.
