(** * Two detectors on the same pixel grid (C96): tables and pictures. *)
From Verif Require Import Vec Spec MMotion MLaue MMesh MScattering MStrain MBeam SBeam MPolycrystal SPolycrystal MDetector MClip MRender SRender SWindow.
From Verif Require Import PMotion PLaue PMesh PBeam PStrain PPolycrystal PPolycrystal2 PDetector PDetector2 PDetector3 PRender PRender2 PRender3 PEvents PEnd2 PJoin2 PFrame PFrame2 PFrame3 PFrame4 PWindow.
From Verif Require Import SDetector.
Open Scope list_scope. Open Scope R_scope.
Local Notation len := List.length.

Lemma diffract_good z x p b m lo hi det pd : fst (diffract z x p b m lo hi det) = Ok pd -> Forall good_row (pd_peaks pd).
Proof.
  intros H. destruct (diffract z x p b m lo hi det) as [r p'] eqn:D. cbn [fst] in H. subst r. apply Forall_forall. intros r Hr.
  apply In_nth_error in Hr as (j & Hj). destruct (peaks_iff _ _ _ _ _ _ _ _ _ _ _ _ D Hj) as (i & ph & e & h & sf & t & G & c & v & A). decompose [and] A. subst r.
  apply full_fin. reflexivity.
Qed.
Definition onb (d : detector) (x y : R) : bool := (Rleb 0 x && Rleb x (d_zmax d) && Rleb 0 y && Rleb y (d_ymax d))%bool.
Lemma onb_iff d x y : onb d x y = true <-> on_panel d x y.
Proof. unfold onb, on_panel. rewrite !andb_true_iff. unfold Rleb. split.
  - intros (((A & B) & C) & D). repeat split; repeat match goal with H : context [Rle_dec ?a ?b] |- _ => destruct (Rle_dec a b); [clear H|discriminate] end; assumption.
  - intros ((A & B) & (C & D)). repeat split; destruct (Rle_dec _ _); auto.
Qed.
Definition bothb (n k : Z) (d d2 : detector) (e : list num) : bool := onb d2 (fcol e 25 - IZR n * d_pz d) (fcol e 26 - IZR k * d_py d).

Lemma pair_hit n k d out out2 r e1 e2 : pd_columns out = column_names ++ new_columns -> pd_columns out2 = column_names ++ new_columns -> len r = 25%nat ->
  pair_ok n k d r e1 e2 -> same_hit n k d out out2 e1 e2.
Proof.
  intros C1 C2 L (x & y & a & f & i & -> & ->). split; [|split].
  - intros c N1 N2. unfold field. rewrite C1, C2. destruct (index_of c (column_names ++ new_columns)) as [j|] eqn:Ej; [|reflexivity].
    pose proof (index_of_nth _ _ _ Ej) as H. destruct (Nat.lt_ge_cases j 25) as [Hj|Hj]; [rewrite !nth_error_app1 by lia; reflexivity|]. rewrite !nth_error_app2 by lia. rewrite L.
    assert (j <> 25%nat) by (intros ->; cbn in H; congruence). assert (j <> 26%nat) by (intros ->; cbn in H; congruence).
    destruct (j - 25)%nat as [|[|q]] eqn:Eq; [lia|lia|reflexivity].
  - unfold read, field. rewrite C1, C2. change (index_of "zd" (column_names ++ new_columns)) with (Some 25%nat). cbv iota. rewrite !nth_error_app2 by lia. rewrite L. reflexivity.
  - unfold read, field. rewrite C1, C2. change (index_of "yd" (column_names ++ new_columns)) with (Some 26%nat). cbv iota. rewrite !nth_error_app2 by lia. rewrite L. reflexivity.
Qed.
Lemma grid_tables n k d d2 z fr A : same_grid n k d d2 -> Forall good_row A ->
  Forall2 (fun e1 e2 => exists r, len r = 25%nat /\ pair_ok n k d r e1 e2)
    (filter (bothb n k d d2) (map (extend z d fr) (filter (keepb z d fr) A)))
    (filter (fun e => onb d (fcol e 25 + IZR n * d_pz d) (fcol e 26 + IZR k * d_py d)) (map (extend z d2 fr) (filter (keepb z d2 fr) A))).
Proof.
  intros G H. induction H as [|r A Hr H IH]; [constructor|]. cbn [filter].
  destruct (grid_row n k d d2 G z fr r Hr) as [(E1 & E2)|(P & x & y & ok & C1 & C2 & K1 & K2)]; [now rewrite E1, E2|].
  assert (L : len r = 25%nat) by (destruct Hr; auto).
  assert (B1 : bothb n k d d2 (extend z d fr r) = onb d2 (x - IZR n * d_pz d) (y - IZR k * d_py d)) by (unfold bothb, fcol; now rewrite C1, C2).
  assert (B2 : onb d (fcol (extend z d2 fr r) 25 + IZR n * d_pz d) (fcol (extend z d2 fr r) 26 + IZR k * d_py d) = onb d x y).
  { destruct P as (x' & y' & a & f & i & P1 & P2). rewrite P1 in C1, C2. unfold ncol in C1, C2. rewrite app_nth2 in C1, C2 by lia. rewrite L in C1, C2. cbn [Nat.sub nth] in C1, C2.
    apply fin_inj in C1, C2. subst x' y'. rewrite P2. unfold fcol, ncol. rewrite !app_nth2 by lia. rewrite L. cbn [Nat.sub nth fval]. f_equal; ring. }
  rewrite <- !onb_iff in K1, K2.
  destruct (keepb z d fr r) eqn:E1, (keepb z d2 fr r) eqn:E2; cbn [map filter]; rewrite ?B1, ?B2.
  - destruct (proj1 K1 eq_refl) as (-> & _). destruct (proj1 K2 eq_refl) as (-> & _). constructor; eauto.
  - destruct (proj1 K1 eq_refl) as (O1 & O2). destruct (onb d2 _ _) eqn:E; [exfalso; assert (false = true) by (apply K2; auto); discriminate|exact IH].
  - destruct (proj1 K2 eq_refl) as (O1 & O2). destruct (onb d x y) eqn:E; [exfalso; assert (false = true) by (apply K1; auto); discriminate|exact IH].
  - exact IH.
Qed.

(** C96. Two detectors on the same pixel grid, given the same peak table: the reflections that each of them sees on the common part of
    their panels are the same, in the same order, and their rows agree in every column, the detector coordinates up to the offset. *)
Lemma pC96_same_reflections : forall n k d d2 z x p b m lo hi det pd z' frames out out2, same_grid n k d d2 ->
  fst (diffract z x p b m lo hi det) = Ok pd -> project z' d pd frames = Ok out -> project z' d2 pd frames = Ok out2 -> (1 <= frames)%Z ->
  exists both both2,
    (forall r, In r (pd_peaks out) -> (both r = true <-> also_on n k d d2 out r)) /\
    (forall r, In r (pd_peaks out2) -> (both2 r = true <-> also_on (- n) (- k) d2 d out2 r)) /\
    Forall2 (same_hit n k d out out2) (filter both (pd_peaks out)) (filter both2 (pd_peaks out2)).
Proof.
  intros n k d d2 z x p b m lo hi det pd z' frames out out2 G D H1 H2 Hn. pose proof (diffract_good _ _ _ _ _ _ _ _ _ D) as A.
  assert (Hf : fresh pd) by (eapply pC32_diffract_tables_fresh; exact D).
  pose proof (out_columns _ _ _ _ _ Hf H1) as C1. pose proof (out_columns _ _ _ _ _ Hf H2) as C2.
  exists (bothb n k d d2), (fun e => onb d (fcol e 25 + IZR n * d_pz d) (fcol e 26 + IZR k * d_py d)).
  split; [|split].
  - intros r Hr. destruct (out_reads _ _ _ _ _ _ Hf Hn H1 Hr) as (_ & E1 & E2 & _). unfold bothb, also_on. rewrite onb_iff, E1, E2. tauto.
  - intros r Hr. destruct (out_reads _ _ _ _ _ _ Hf Hn H2 Hr) as (_ & E1 & E2 & _). unfold also_on. rewrite onb_iff, E1, E2, !opp_IZR.
    destruct G as (_ & _ & _ & _ & _ & _ & _ & P1 & P2 & _). rewrite P1, P2. replace (fcol r 25 - - IZR n * d_pz d) with (fcol r 25 + IZR n * d_pz d) by ring.
    replace (fcol r 26 - - IZR k * d_py d) with (fcol r 26 + IZR k * d_py d) by ring. tauto.
  - apply project_inv in H1 as (P1 & _). apply project_inv in H2 as (P2 & _). rewrite P1, P2. eapply F2_impl; [|apply (grid_tables n k d d2 z' frames _ G A)].
    intros e1 e2 (r & L & Hp). eapply pair_hit; eauto.
Qed.
