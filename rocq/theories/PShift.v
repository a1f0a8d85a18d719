(** * Displacing the sample, or the motion's travel and rotation centre (C104): the table. *)
From Verif Require Import Vec Spec MMotion MLaue MMesh MScattering MStrain MBeam SBeam MPolycrystal SPolycrystal MDetector MClip MRender SRender SFrame SAperture.
From Verif Require Import PMotion PLaue PMesh PBeam PStrain PPolycrystal PPolycrystal2 PPolycrystal3 PDetector PDetector2 PEvents PJoin PJoin2 PFrame PFrame2 PFrame3 PFrame4 PAperture.
From Verif Require Import SShift SDetector.
Open Scope list_scope. Open Scope R_scope.
Local Notation len := List.length.

Lemma mI_l A : mm mI A = A. Proof. veq. Qed.
Lemma mI_v v : mv mI v = v. Proof. veq. Qed.
Lemma mI_T : mT mI = mI. Proof. reflexivity. Qed.
Lemma mI_r A : mm A mI = A. Proof. veq. Qed.
Lemma map_mI l : map (mm mI) l = l. Proof. rewrite (map_ext _ (fun x => x)); [apply map_id|]. apply mI_l. Qed.
Lemma put_mI v x : put mI v x = vadd x v. Proof. unfold put. now rewrite mI_v. Qed.
Lemma put_mI_map v l : map (put mI v) l = map (shifted v) l.
Proof. apply map_ext. intros. apply put_mI. Qed.

(** ** The displacement of points *)
Lemma move_disp a w T o T2 o2 s x v :
  move_at (Motion a w T2 o2) s (vadd x v) =
  vadd (move_at (Motion a w T o) s x)
    (vadd (vadd (rot_at (Motion a w T o) s (vsub v (vsub o2 o))) (vsub o2 o)) (vscale s (vsub T2 T))).
Proof.
  unfold move_at, rot_at. cbn [m_axis m_angle m_trans m_origin]. generalize (rod_matrix a (w * s)). intros R.
  rewrite !mv_sub, !mv_add. generalize (mv R x) (mv R v) (mv R o) (mv R o2). intros. veq.
Qed.
(** C104. Motions of the same rotation take displaced points where the undisplaced ones go, plus a displacement that
    depends on the time only: the turned shift (relative to the rotation centres), the shift of the centre, and the extra travel. *)
Lemma pC104_displacement : forall m m2 v, same_turning m m2 ->
  displacement m m2 v (fun s => vadd (vadd (rot_at m s (vsub v (vsub (m_origin m2) (m_origin m)))) (vsub (m_origin m2) (m_origin m)))
                                     (vscale s (vsub (m_trans m2) (m_trans m)))).
Proof.
  intros [a w T o] [a2 w2 T2 o2] v (E1 & E2) s x y H. cbn in E1, E2. subst a2 w2. rewrite call_P1_S0 in *.
  apply okP1_inj in H || (assert (H' : move_at (Motion a w T o) s x = y) by congruence; clear H; rename H' into H). subst y.
  cbn [m_axis m_angle m_trans m_origin]. now rewrite move_disp with (T := T) (o := o).
Qed.
Lemma disp_at m m2 v w s x : displacement m m2 v w -> move_at m2 s (vadd x v) = vadd (move_at m s x) (w s).
Proof. intros H. specialize (H s x _ (call_P1_S0 m x s)). rewrite call_P1_S0 in H. congruence. Qed.

(** ** Reflections before the region of the beam is applied *)
Lemma rows10_shift v p p2 phs rho w : moved_sample mI v p p2 -> rows10 p2 phs rho w = rows10 p phs rho w.
Proof. intros (U & _ & _ & _ & _ & B & M & _). rewrite map_mI in U. unfold rows10, phase_rows. now rewrite U, B, M. Qed.
Definition f_full z b m (t : list R * vec * R) : list num := full_row z b m (fst (fst t)) (snd (fst t)) (snd t).
Definition f_moved z b m v (t : list R * vec * R) : list num := full_row z b m (fst (fst t)) (vadd (snd (fst t)) v) (snd t).
Lemma compute_shift z v p p2 phs b b2 m m2 : moved_sample mI v p p2 -> same_xrays b b2 -> same_turning m m2 ->
  (exists e, compute_peaks z p phs b m = Err e /\ compute_peaks z p2 phs b2 m2 = Err e) \/
  exists L, Forall (fun t => len (fst (fst t)) = 10%nat) L /\
    compute_peaks z p phs b m = Ok (map (f_full z b m) L) /\ compute_peaks z p2 phs b2 m2 = Ok (map (f_moved z b2 m2 v) L).
Proof.
  intros P (X1 & X2 & X3) (T1 & T2). rewrite !compute_peaks_bind. rewrite X1, T1, T2, (rows10_shift v p p2) by auto.
  destruct (rows10 p phs _ _) as [rows|e] eqn:ER; [|left; exists e; split; reflexivity]. cbn [bind]. apply rows10_len in ER.
  destruct P as (_ & _ & P3 & _ & P5 & _). rewrite P3, P5, put_mI_map, gather_rmap.
  destruct (gather (me_espherecentroids _) _) as [cents|e]; [|left; exists e; split; reflexivity]. cbn [rmap bind].
  destruct (gather (pc_volumes p) _) as [vols|e]; [|left; exists e; split; reflexivity]. cbn [bind].
  destruct (Nat.eqb (len rows) 1); [left; eexists; split; reflexivity|]. right. exists (zip3 rows cents vols).
  split; [|split; [reflexivity|]].
  - apply Forall_forall. intros ((r & c) & q) Hi. cbn [fst]. rewrite Forall_forall in ER. apply ER. apply zip3_in in Hi as (k & Hk & _). eapply nth_error_In; eauto.
  - f_equal. rewrite <- (map_id rows) at 1. rewrite <- (map_id vols) at 1. rewrite zip3_map, map_map. reflexivity.
Qed.

(** ** Entries *)
Lemma full_split z b b2 m m2 v w t : same_xrays b b2 -> same_turning m m2 -> displacement m m2 v w -> len (fst (fst t)) = 10%nat ->
  exists h s tl, len h = 16%nat /\ len tl = 5%nat /\ nth_error h 6 = Some (Fin (rcol (fst (fst t)) 6)) /\
    f_full z b m t = h ++ map Fin (vlist s) ++ tl /\
    f_moved z b2 m2 v t = h ++ map Fin (vlist (vadd s (w (rcol (fst (fst t)) 6)))) ++ tl.
Proof.
  intros (X1 & X2 & X3) (T1 & T2) D L. destruct t as ((r & c) & q). cbn [fst snd] in *. unfold f_full, f_moved, full_row. cbn [fst snd]. cbv zeta.
  rewrite (disp_at m m2 v w _ _ D), X1, X2, X3, T1. assert (ER : rot_at m2 = rot_at m) by (unfold rot_at; now rewrite T1, T2). rewrite ER.
  unfold row24. set (G := rot_at m _ _). set (s := move_at m _ c).
  exists (map Fin r ++ map Fin (vlist G) ++ map Fin (vlist (vadd G (b_wave_vector b)))), s. eexists.
  split; [rewrite !app_length, !map_length, L; reflexivity|]. rewrite <- !app_assoc. split; [|split; [|split; reflexivity]]; [reflexivity|].
  rewrite nth_error_app1 by (rewrite map_length; lia). rewrite nth_error_map. unfold rcol. rewrite (nth_error_nth' r 0) by lia. reflexivity.
Qed.
Lemma split_fields pd pd2 w t h s tl i j : pd_columns pd = column_names -> pd_columns pd2 = column_names ->
  len h = 16%nat -> len tl = 5%nat -> nth_error h 6 = Some (Fin t) ->
  displaced_row w pd pd2 ((h ++ map Fin (vlist s) ++ tl) ++ [i]) ((h ++ map Fin (vlist (vadd s (w t))) ++ tl) ++ [j]).
Proof.
  intros C C2 Lh Lt Ht.
  split.
  - intros c N. unfold field. rewrite C, C2. destruct (index_of c column_names) as [k|] eqn:Ek; [|reflexivity].
    pose proof (index_of_nth _ _ _ Ek) as H. pose proof (nth_error_lt' _ _ _ H) as Lk. change (len column_names) with 25%nat in Lk.
    assert (k <> 16%nat /\ k <> 17%nat /\ k <> 18%nat /\ k <> 24%nat) as (K1 & K2 & K3 & K4).
    { repeat apply conj; intros ->; apply N; cbn in H; injection H as <-; cbn; tauto. }
    assert (Lm : forall u, len (map Fin (vlist u)) = 3%nat) by reflexivity.
    rewrite !(nth_error_app1 (_ ++ _ ++ _)) by (rewrite !app_length, Lm; lia).
    destruct (lt_dec k 16) as [Hk|Hk]; [rewrite !nth_error_app1 by lia; reflexivity|].
    rewrite !(nth_error_app2 h) by lia. rewrite !(nth_error_app2 (map Fin _)) by (rewrite Lm; lia). now rewrite !Lm.
  - assert (Lm : forall u, len (map Fin (vlist u)) = 3%nat) by reflexivity.
    assert (G : forall q u x k, (k < 3)%nat -> nth_error ((h ++ map Fin (vlist u) ++ q) ++ x) (16 + k) = nth_error (map Fin (vlist u)) k).
    { intros q u x k Hk. rewrite nth_error_app1 by (rewrite !app_length, Lm; lia). rewrite nth_error_app2 by lia.
      rewrite nth_error_app1 by (rewrite Lm; lia). f_equal. lia. }
    exists t, s. split; [|split].
    + unfold has, field. rewrite C. change (index_of "diffraction_times" column_names) with (Some 6%nat). cbv iota.
      rewrite nth_error_app1 by (rewrite !app_length, Lm; lia). rewrite nth_error_app1 by lia. exact Ht.
    + unfold source_of, has_vec, has, field. rewrite C.
      change (index_of "Source_x" column_names) with (Some (16 + 0)%nat). change (index_of "Source_y" column_names) with (Some (16 + 1)%nat). change (index_of "Source_z" column_names) with (Some (16 + 2)%nat). cbv iota.
      rewrite !G by lia. auto.
    + unfold source_of, has_vec, has, field. rewrite C2.
      change (index_of "Source_x" column_names) with (Some (16 + 0)%nat). change (index_of "Source_y" column_names) with (Some (16 + 1)%nat). change (index_of "Source_z" column_names) with (Some (16 + 2)%nat). cbv iota.
      rewrite !G by lia. auto.
Qed.
(** whether a row lands *)
Definition lands (w : R -> vec) (b : beam) (r : list num) : bool :=
  match ncol r 6, ncol r 16, ncol r 17, ncol r 18 with
  | Fin t, Fin x, Fin y, Fin z => beam_contains (b_halfspaces b) (vadd (V3 x y z) (w t))
  | _, _, _, _ => false
  end.
Lemma lands_iff w pd b r : pd_columns pd = column_names -> len r = 25%nat -> lands w b r = true <-> source_lands w pd b r.
Proof.
  intros C L. unfold source_lands, source_of, has_vec.
  assert (E : forall s k x, index_of s column_names = Some k -> (k < 25)%nat -> (has pd r s x <-> ncol r k = Fin x)).
  { intros s k x Hk Lk. apply has_ncol; [now rewrite C|lia]. }
  unfold lands. split.
  - destruct (ncol r 6) as [t| | |] eqn:E6; try discriminate. destruct (ncol r 16) as [x| | |] eqn:E1; try discriminate.
    destruct (ncol r 17) as [y| | |] eqn:E2; try discriminate. destruct (ncol r 18) as [q| | |] eqn:E3; try discriminate.
    intros H. exists t, (V3 x y q). split; [now apply (E _ 6%nat); [reflexivity|lia|]|]. split; [|now apply contains_iff].
    split; [now apply (E _ 16%nat); [reflexivity|lia|]|]. split; [now apply (E _ 17%nat); [reflexivity|lia|]|now apply (E _ 18%nat); [reflexivity|lia|]].
  - intros (t & [x y q] & Ht & (S1 & S2 & S3) & I). cbn in S1, S2, S3.
    apply (E _ 6%nat) in Ht; [|reflexivity|lia]. apply (E _ 16%nat) in S1; [|reflexivity|lia]. apply (E _ 17%nat) in S2; [|reflexivity|lia]. apply (E _ 18%nat) in S3; [|reflexivity|lia].
    rewrite Ht, S1, S2, S3. now apply contains_iff.
Qed.
Lemma split_lit b h s tl x : len h = 16%nat -> illuminated b ((h ++ map Fin (vlist s) ++ tl) ++ x) = beam_contains (b_halfspaces b) s.
Proof.
  intros L. unfold illuminated, ncol. do 16 (destruct h as [|? h]; [discriminate L|]). destruct h; [|discriminate L]. destruct s. reflexivity.
Qed.
Lemma split_lands w b h s tl x t : len h = 16%nat -> nth_error h 6 = Some (Fin t) ->
  lands w b ((h ++ map Fin (vlist s) ++ tl) ++ x) = beam_contains (b_halfspaces b) (vadd s (w t)).
Proof.
  intros L. unfold lands, ncol. do 16 (destruct h as [|? h]; [discriminate L|]). destruct h; [|discriminate L].
  cbn [nth_error]. intros E. injection E as ->. destruct s. reflexivity.
Qed.

(** ** Two filtered and numbered lists of rows made from the same labels *)
Lemma two_lists {T} (Q : T -> Prop) (f1 f2 : T -> list num) (p1 p2 : T -> bool) (k1 k2 : list num -> bool) L :
  (forall t i, Q t -> k1 (f1 t ++ [Fin (INR i)]) = p2 t) -> (forall t i, Q t -> k2 (f2 t ++ [Fin (INR i)]) = p1 t) -> Forall Q L ->
  forall i j,
  Forall2 (fun r r2 => exists t i j, Q t /\ r = f1 t ++ [Fin (INR i)] /\ r2 = f2 t ++ [Fin (INR j)])
    (filter k1 (mapi_from i (fun i r => r ++ [Fin (INR i)]) (map f1 (filter p1 L))))
    (filter k2 (mapi_from j (fun i r => r ++ [Fin (INR i)]) (map f2 (filter p2 L)))).
Proof.
  intros K1 K2 HQ. induction L as [|t L IH]; intros i j; [constructor|]. inversion HQ as [|? ? Qt QL]; subst. specialize (IH QL). cbn [filter].
  destruct (p1 t) eqn:E1, (p2 t) eqn:E2; cbn [map mapi_from filter]; rewrite ?K1, ?K2, ?E1, ?E2 by auto; try apply IH. constructor; [|apply IH]. eauto 10.
Qed.

(** ** C104: tables *)
Lemma setup_shift x v p p2 b b2 lo hi : moved_sample mI v p p2 -> same_xrays b b2 ->
  moved_sample mI v (setup_all x p b lo hi) (setup_all x p2 b2 lo hi) /\ pc_phases (setup_all x p2 b2 lo hi) = pc_phases (setup_all x p b lo hi).
Proof.
  intros (P1 & P2 & P3 & P4 & P5 & P6 & P7 & P8) (_ & X & _). unfold setup_all, moved_sample. cbn [pc_U pc_mesh_lab pc_volumes pc_eB pc_map pc_phases]. rewrite X, P8. auto 10.
Qed.
Lemma shift_tables z x v p p2 b b2 m m2 w lo hi : moved_sample mI v p p2 -> same_xrays b b2 -> same_turning m m2 -> displacement m m2 v w ->
  let out := diffract z x p b m lo hi None in let out2 := diffract z x p2 b2 m2 lo hi None in
  moved_sample mI v (snd out) (snd out2) /\
  ((exists e, fst out = Err e /\ fst out2 = Err e) \/
   exists pd pd2 L, fst out = Ok pd /\ fst out2 = Ok pd2 /\ pd_columns pd = column_names /\ pd_columns pd2 = column_names /\
     Forall (fun t => len (fst (fst t)) = 10%nat) L /\
     pd_peaks pd = mapi (fun i r => r ++ [Fin (INR i)]) (map (f_full z b m) (filter (fun t => illuminated b (f_full z b m t)) L)) /\
     pd_peaks pd2 = mapi (fun i r => r ++ [Fin (INR i)]) (map (f_moved z b2 m2 v) (filter (fun t => illuminated b2 (f_moved z b2 m2 v t)) L))).
Proof.
  intros P X T D. rewrite !diffract_none. cbv zeta. destruct (setup_shift x v p p2 b b2 lo hi P X) as (S & E). rewrite E.
  destruct (compute_shift z v _ _ (pc_phases (setup_all x p b lo hi)) b b2 m m2 S X T) as [(e & H1 & H2)|(L & HL & H1 & H2)]; rewrite H1, H2; cbn [bind fst snd].
  - split; [exact S|]. left. eauto.
  - split; [exact S|]. right. eexists. eexists. exists L. split; [reflexivity|]. split; [reflexivity|]. cbn [pd_columns pd_peaks].
    rewrite !PDetector2.filter_map. auto 10.
Qed.
(** C104. Displace the sample (and the motion's rotation centre and travel), keeping orientations and the rotation: diffract
    raises exactly when it did, with the same exception, and the samples afterwards are again displaced copies. *)
Lemma pC104_same_failures : forall z x v p p2 b b2 m m2 lo hi, moved_sample mI v p p2 -> same_xrays b b2 -> same_turning m m2 ->
  let out := diffract z x p b m lo hi None in let out2 := diffract z x p2 b2 m2 lo hi None in
  (forall e, fst out2 = Err e <-> fst out = Err e) /\ moved_sample mI v (snd out) (snd out2).
Proof.
  intros z x v p p2 b b2 m m2 lo hi P X T. cbv zeta. destruct (shift_tables z x v p p2 b b2 m m2 _ lo hi P X T (pC104_displacement m m2 v T)) as (S & [(e & E1 & E2)|(pd & pd2 & L & E1 & E2 & _)]);
    (split; [|exact S]); intros e'; rewrite E1, E2; [tauto|split; discriminate].
Qed.
(** C104. The rows whose displaced source is in the (second) beam are, in their order, the rows of the second table whose source was
    in the first beam before it was displaced: same reflection, same time, same vectors and factors, source points w(time) apart. *)
Lemma pC104_same_reflections : forall z x v p p2 b b2 m m2 w lo hi pd pd2,
  moved_sample mI v p p2 -> same_xrays b b2 -> same_turning m m2 -> displacement m m2 v w ->
  fst (diffract z x p b m lo hi None) = Ok pd -> fst (diffract z x p2 b2 m2 lo hi None) = Ok pd2 ->
  exists keep keep2, (forall r, In r (pd_peaks pd) -> (keep r = true <-> source_lands w pd b2 r)) /\
    (forall r, In r (pd_peaks pd2) -> (keep2 r = true <-> source_lands (fun s => vneg (w s)) pd2 b r)) /\
    Forall2 (displaced_row w pd pd2) (filter keep (pd_peaks pd)) (filter keep2 (pd_peaks pd2)).
Proof.
  intros z x v p p2 b b2 m m2 w lo hi pd pd2 P X T D D1 D2.
  destruct (shift_tables z x v p p2 b b2 m m2 w lo hi P X T D) as (_ & [(e & E1 & E2)|(pd' & pd2' & L & E1 & E2 & C & C2 & HL & R & R2)]); [rewrite D1 in E1; discriminate|].
  rewrite D1 in E1. rewrite D2 in E2. apply ok_inj in E1, E2. subst pd' pd2'.
  pose proof (proj2 (pC32_diffract_tables_fresh _ _ _ _ _ _ _ _ _ D1)) as L1. pose proof (proj2 (pC32_diffract_tables_fresh _ _ _ _ _ _ _ _ _ D2)) as L2.
  rewrite Forall_forall in L1, L2.
  exists (lands w b2), (lands (fun s => vneg (w s)) b).
  split; [intros r Hr; apply lands_iff; auto|]. split; [intros r Hr; apply lands_iff; auto|].
  rewrite R, R2. unfold mapi.
  eapply F2_impl; [|apply two_lists with (Q := fun t => len (fst (fst t)) = 10%nat)].
  - intros r r2 (t & i & j & Lt & -> & ->). destruct (full_split z b b2 m m2 v w t X T D Lt) as (h & s & tl & Lh & Ltl & Ht & -> & ->).
    now apply split_fields.
  - intros t i Lt. destruct (full_split z b b2 m m2 v w t X T D Lt) as (h & s & tl & Lh & Ltl & Ht & -> & ->).
    rewrite <- (app_nil_r (h ++ map Fin (vlist (vadd s _)) ++ tl)), split_lit by auto. now rewrite split_lands with (t := rcol (fst (fst t)) 6).
  - intros t i Lt. destruct (full_split z b b2 m m2 v w t X T D Lt) as (h & s & tl & Lh & Ltl & Ht & -> & ->).
    rewrite <- (app_nil_r (h ++ map Fin (vlist s) ++ tl)), split_lit by auto. rewrite split_lands with (t := rcol (fst (fst t)) 6) by auto.
    f_equal. veq.
  - exact HL.
Qed.
Lemma filter_all {A} (f : A -> bool) l : (forall x, In x l -> f x = true) -> filter f l = l.
Proof. induction l as [|a l IH]; intros H; [reflexivity|]. cbn [filter]. rewrite H by now left. f_equal. apply IH. intros; apply H; now right. Qed.
(** C104. When no source leaves or enters the beam, the two tables have the same rows in the same order, numbers included. *)
Lemma pC104_fully_lit : forall z x v p p2 b b2 m m2 w lo hi pd pd2,
  moved_sample mI v p p2 -> same_xrays b b2 -> same_turning m m2 -> displacement m m2 v w ->
  fst (diffract z x p b m lo hi None) = Ok pd -> fst (diffract z x p2 b2 m2 lo hi None) = Ok pd2 ->
  (forall r, In r (pd_peaks pd) -> source_lands w pd b2 r) ->
  (forall r, In r (pd_peaks pd2) -> source_lands (fun s => vneg (w s)) pd2 b r) ->
  Forall2 (fun r r2 => displaced_row w pd pd2 r r2 /\ field pd2 r2 "peak_index" = field pd r "peak_index") (pd_peaks pd) (pd_peaks pd2).
Proof.
  intros z x v p p2 b b2 m m2 w lo hi pd pd2 P X T D D1 D2 A A2.
  destruct (pC104_same_reflections z x v p p2 b b2 m m2 w lo hi pd pd2 P X T D D1 D2) as (k & k2 & K & K2 & F).
  rewrite !filter_all in F by (intros r Hr; first [apply K; auto; fail | apply K2; auto]).
  destruct (shift_tables z x v p p2 b b2 m m2 w lo hi P X T D) as (_ & [(e & E1 & E2)|(pd' & pd2' & L & E1 & E2 & C & C2 & HL & R & R2)]); [rewrite D1 in E1; discriminate|].
  rewrite D1 in E1. rewrite D2 in E2. apply ok_inj in E1, E2. subst pd' pd2'.
  assert (N : forall (q : peaks_dict) (l : list (list num)) r i, pd_columns q = column_names -> Forall (fun r => len r = 25%nat) (pd_peaks q) -> pd_peaks q = mapi (fun i r => r ++ [Fin (INR i)]) l ->
     nth_error (pd_peaks q) i = Some r -> field q r "peak_index" = Some (Fin (INR i))).
  { intros q l r i Cq Lq Rq H. pose proof (nth_error_In _ _ H) as Hin. rewrite Forall_forall in Lq. specialize (Lq r Hin).
    rewrite Rq, mapi_nth_error in H. destruct (nth_error l i) as [r0|]; [|discriminate]. cbn [option_map] in H. assert (Er : r = r0 ++ [Fin (INR i)]) by congruence. subst r.
    rewrite app_length in Lq. cbn in Lq. unfold field. rewrite Cq. change (index_of "peak_index" column_names) with (Some 24%nat). cbv iota.
    rewrite nth_error_app2 by lia. replace (24 - len r0)%nat with 0%nat by lia. reflexivity. }
  pose proof (proj2 (pC32_diffract_tables_fresh _ _ _ _ _ _ _ _ _ D1)) as L1. pose proof (proj2 (pC32_diffract_tables_fresh _ _ _ _ _ _ _ _ _ D2)) as L2.
  pose proof (fun i r => N pd _ r i C L1 R) as N1. pose proof (fun i r => N pd2 _ r i C2 L2 R2) as N2. clear - F N1 N2. revert F N1 N2.
  generalize (pd_peaks pd) (pd_peaks pd2). intros l l2 F N1 N2.
  assert (G : forall i, (forall k r, nth_error l k = Some r -> field pd r "peak_index" = Some (Fin (INR (i + k)))) ->
     (forall k r, nth_error l2 k = Some r -> field pd2 r "peak_index" = Some (Fin (INR (i + k)))) -> 
     Forall2 (fun r r2 => displaced_row w pd pd2 r r2 /\ field pd2 r2 "peak_index" = field pd r "peak_index") l l2).
  { clear N1 N2. induction F as [|r r2 l l2 H F IH]; intros i N1 N2; constructor.
    - split; [exact H|]. rewrite (N1 0%nat r), (N2 0%nat r2) by reflexivity. reflexivity.
    - apply (IH (S i)); intros k q Hk; [rewrite (N1 (S k) q) by exact Hk|rewrite (N2 (S k) q) by exact Hk]; do 3 f_equal; lia. }
  apply (G 0%nat); intros; [now apply N1|now apply N2].
Qed.
(** C104 is symmetric. *)
Lemma pC104_symmetric : forall v p p2 m m2 w b b2, moved_sample mI v p p2 -> displacement m m2 v w -> same_turning m m2 -> same_xrays b b2 ->
  moved_sample mI (vneg v) p2 p /\ displacement m2 m (vneg v) (fun s => vneg (w s)) /\ same_turning m2 m /\ same_xrays b2 b.
Proof.
  intros v p p2 m m2 w b b2 (P1 & P2 & P3 & P4 & P5 & P6 & P7 & P8) D (T1 & T2) (X1 & X2 & X3).
  assert (I : forall y, put mI (vneg v) (put mI v y) = y) by (intros; rewrite !put_mI; veq).
  split.
  - unfold moved_sample. rewrite P1, P2, P3, P4, !map_mI, !map_map. rewrite !(map_ext _ (fun y => y) I), !map_id, I. auto 10.
  - split.
    + intros s x y H. rewrite call_P1_S0 in *. assert (Hy : move_at m2 s x = y) by congruence. subst y. do 2 f_equal.
      replace x with (vadd (vadd x (vneg v)) v) at 2 by veq. rewrite (disp_at m m2 v w _ _ D). set (q := move_at m s _). generalize q (w s). intros. veq.
    + split; [split|repeat apply conj]; congruence.
Qed.
(** C104. Such a sample is what one gets by building the mesh from the shifted vertices, with the same other arguments. *)
Lemma pC104_built : forall v x coord enod me o st phs mp p, enod <> [] ->
  build_mesh coord enod = Ok me -> make_polycrystal x me o st phs mp = Ok p ->
  exists me2 p2, build_mesh (map (shifted v) coord) enod = Ok me2 /\ make_polycrystal x me2 o st phs mp = Ok p2 /\ moved_sample mI v p p2.
Proof.
  intros v x coord enod me o st phs mp p Hn HB HP.
  assert (HI : is_rotation mI).
  { rewrite <- (rod_0 (V3 0 0 1)). apply rod_rotation. exact unit_ez. }
  destruct (pC89_built_sample mI v x coord enod me o st phs mp p HI Hn HB HP) as (me2 & p2 & H1 & H2 & H3).
  rewrite put_mI_map in H1. exists me2, p2. split; [exact H1|]. split; [|exact H3].
  assert (E1 : mats_map (mm mI) o = o) by (destruct o; cbn [mats_map]; [now rewrite mI_l|now rewrite map_mI|reflexivity]).
  assert (E2 : mats_map (fun e => mm (mm mI e) (mT mI)) st = st).
  { destruct st; cbn [mats_map]; rewrite ?mI_T; [now rewrite mI_l, mI_r| |reflexivity]. f_equal. rewrite (map_ext _ (fun e => e)); [apply map_id|]. intros; now rewrite mI_l, mI_r. }
  rewrite E1, E2 in H2. exact H2.
Qed.
