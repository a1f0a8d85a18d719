(** * Phases with CIF files, and phases shared by several polycrystals (C87). *)
From Verif Require Import Vec Spec MMotion MLaue MMesh MScattering MBeam MPolycrystal MStructure MPhase SStructure SPolycrystal SPhase.
From Verif Require Import PMotion PLaue PMesh PBeam PStrain PPolycrystal PPolycrystal3 PStructure.
From Coq Require Import String.
Open Scope list_scope. Open Scope R_scope.
Local Notation len := List.length.

(** ** Structure factors from a file *)
Lemma batch_inv t dk hkl cell sg cif F : structure_batch t dk hkl cell sg cif = Ok F ->
  exists name b others ops a be c al bt ga more,
    dk cif = Ok ((name, Ok b) :: others) /\ tb_ops t sg = Ok ops /\ cell = a :: be :: c :: al :: bt :: ga :: more /\
    structure_factors (Structure (cb_atoms b) (cb_dispersion b) ops (tb_formfactor t) (tb_cellstar t)) (Cell a be c al bt ga) hkl = Ok F.
Proof.
  unfold structure_batch. destruct (dk cif) as [[|[name [b|]] others]|] eqn:E; cbn [bind cif_open]; try discriminate.
  destruct (tb_ops t sg) as [ops|] eqn:E2; cbn [bind]; [|discriminate].
  destruct cell as [|a [|be [|c [|al [|bt [|ga more]]]]]]; cbn [bind cell_of]; try discriminate.
  intros H. repeat eexists; eauto.
Qed.
Lemma factors_known st u hkl F : structure_factors st u hkl = Ok F -> st_atoms st <> [] /\ known_types st.
Proof.
  intros H. split.
  - intros E. unfold structure_factors, form_factors_batch in H. rewrite E in H. cbn in H. discriminate.
  - intros a Ha E. rewrite pC61_unknown_type in H; [discriminate|]. intros K. now apply (K a Ha).
Qed.
(** Structure factors are available exactly for readable files; no other condition, and it does
    not depend on the reflections. *)
Lemma pC87_readable_iff : forall t dk ph cif hkl, ph_cif ph = Some cif ->
  (exists F, structure_batch t dk hkl (ph_cell ph) (ph_sg ph) cif = Ok F) <-> readable t dk ph.
Proof.
  intros t dk ph cif hkl Hc. split.
  - intros (F & H). apply batch_inv in H as (name & b & others & ops & a & be & c & al & bt & ga & more & E1 & E2 & E3 & E4).
    right. apply factors_known in E4 as (K1 & K2).
    exists (Structure (cb_atoms b) (cb_dispersion b) ops (tb_formfactor t) (tb_cellstar t)), (Cell a be c al bt ga).
    split; [|auto]. exists cif, name, b, others, ops, a, be, c, al, bt, ga, more. auto 10.
  - intros [H|(st & u & H & K1 & K2)]; [congruence|].
    destruct H as (cif' & name & b & others & ops & a & be & c & al & bt & ga & more & E0 & E1 & E2 & E3 & -> & ->).
    assert (cif' = cif) by congruence. subst cif'. exists (map (fun h => (F_re (Structure (cb_atoms b) (cb_dispersion b) ops (tb_formfactor t) (tb_cellstar t)) (Cell a be c al bt ga) h, F_im (Structure (cb_atoms b) (cb_dispersion b) ops (tb_formfactor t) (tb_cellstar t)) (Cell a be c al bt ga) h)) hkl).
    unfold structure_batch. rewrite E1. cbn [bind cif_open]. rewrite E2. cbn [bind]. rewrite E3. cbn [bind cell_of]. now apply pC61_formula.
Qed.
(** Only the first block of the file counts; a file without blocks is an IndexError. *)
Lemma pC87_first_block : forall t dk dk' hkl cell sg cif first others others',
  dk cif = Ok (first :: others) -> dk' cif = Ok (first :: others') ->
  structure_batch t dk hkl cell sg cif = structure_batch t dk' hkl cell sg cif.
Proof. intros t dk dk' hkl cell sg cif [n b] o o' H H'. unfold structure_batch. rewrite H, H'. reflexivity. Qed.
Lemma pC87_no_block : forall t dk hkl cell sg cif, dk cif = Ok [] -> structure_batch t dk hkl cell sg cif = Err IndexError.
Proof. intros t dk hkl cell sg cif H. unfold structure_batch. rewrite H. reflexivity. Qed.

(** ** One Phase object *)
Lemma object_kept t dk ph wl lo hi : same_material ph (fst (setup_object t dk ph wl lo hi)).
Proof.
  unfold setup_object, same_material. destruct (ph_cif ph) as [cif|] eqn:E; cbn; auto.
  destruct (structure_batch _ _ _ _ _ _); cbn; rewrite ?E; auto.
Qed.
Lemma object_hkl t dk ph wl lo hi : ph_hkl (fst (setup_object t dk ph wl lo hi)) = Some (planes_between t ph wl lo hi).
Proof. unfold setup_object. destruct (ph_cif ph); cbn; auto. destruct (structure_batch _ _ _ _ _ _); reflexivity. Qed.
Lemma object_idem t dk ph wl lo hi : setup_object t dk (fst (setup_object t dk ph wl lo hi)) wl lo hi = setup_object t dk ph wl lo hi.
Proof.
  unfold setup_object at 2 3. destruct (ph_cif ph) as [cif|] eqn:E; cbn.
  - destruct (structure_batch _ _ _ _ _ _) as [F|e] eqn:S; cbn; unfold setup_object; cbn; rewrite S; reflexivity.
  - reflexivity.
Qed.
(** Two states of the same object that a phase history can produce. *)
Definition akin (ph ph' : phase) : Prop := same_material ph ph' /\ (ph_cif ph = None -> ph_sf ph' = ph_sf ph).
Lemma akin_refl ph : akin ph ph. Proof. repeat split; auto. Qed.
Lemma akin_trans a b c : akin a b -> akin b c -> akin a c.
Proof.
  intros ((A1 & A2 & A3) & A4) ((B1 & B2 & B3) & B4). split; [repeat split; congruence|].
  intros H. rewrite B4 by congruence. auto.
Qed.
Lemma akin_sym a b : akin a b -> akin b a.
Proof. intros ((A1 & A2 & A3) & A4). split; [repeat split; congruence|]. intros H. symmetry. apply A4. congruence. Qed.
Lemma object_akin t dk ph wl lo hi : akin ph (fst (setup_object t dk ph wl lo hi)).
Proof. split; [apply object_kept|]. intros E. unfold setup_object. rewrite E. reflexivity. Qed.
Lemma akin_object t dk ph ph' wl lo hi : akin ph ph' ->
  snd (setup_object t dk ph' wl lo hi) = snd (setup_object t dk ph wl lo hi) /\
  (snd (setup_object t dk ph wl lo hi) = None -> setup_object t dk ph' wl lo hi = setup_object t dk ph wl lo hi).
Proof.
  intros ((A1 & A2 & A3) & A4). unfold setup_object. rewrite A1, A2, A3. destruct (ph_cif ph) as [cif|] eqn:E.
  - destruct (structure_batch _ _ _ _ _ _); cbn; split; auto. discriminate.
  - cbn. rewrite A4; auto.
Qed.
Lemma akin_snd t dk ph ph' wl lo hi : akin ph ph' -> akin (fst (setup_object t dk ph wl lo hi)) (fst (setup_object t dk ph' wl lo hi)).
Proof.
  intros H. eapply akin_trans; [apply akin_sym, object_akin|]. eapply akin_trans; [exact H|]. apply object_akin.
Qed.

(** ** The loop over the phases of a polycrystal *)
Definition heap_akin (h h' : list phase) : Prop := Forall2 akin h h'.
Lemma heap_refl h : heap_akin h h. Proof. induction h; constructor; auto using akin_refl. Qed.
Lemma heap_trans a b c : heap_akin a b -> heap_akin b c -> heap_akin a c.
Proof.
  intros H. revert c. induction H as [|x y a b Hx H IH]; intros c G; inversion G; subst; constructor; eauto using akin_trans.
  now apply IH.
Qed.
Lemma heap_sym a b : heap_akin a b -> heap_akin b a.
Proof. induction 1; constructor; auto using akin_sym. Qed.
Lemma heap_set h h' i ph ph' : heap_akin h h' -> akin ph ph' -> heap_akin (set_nth h i ph) (set_nth h' i ph').
Proof. intros H A. revert i. induction H; intros [|i]; cbn; constructor; auto. apply IHForall2. Qed.
Lemma heap_set_r h i ph ph' : nth_error h i = Some ph -> akin ph ph' -> heap_akin h (set_nth h i ph').
Proof.
  revert i. induction h as [|x h IH]; intros [|i] E A; try discriminate; cbn in *.
  - inversion E; subst. constructor; auto using heap_refl. apply heap_refl.
  - constructor; auto using akin_refl. now apply IH.
Qed.
Lemma heap_nth h h' i : heap_akin h h' ->
  match nth_error h i, nth_error h' i with Some a, Some b => akin a b | None, None => True | _, _ => False end.
Proof. intros H. revert i. induction H; intros [|i]; cbn; auto. apply IHForall2. Qed.
Lemma all_akin t dk wl lo hi idx : forall h, heap_akin h (fst (setup_all t dk h idx wl lo hi)).
Proof.
  induction idx as [|i idx IH]; intros h; cbn [setup_all]; [apply heap_refl|].
  destruct (nth_error h i) as [ph|] eqn:E; [|apply heap_refl].
  destruct (setup_object t dk ph wl lo hi) as (ph' & e) eqn:S.
  assert (A : heap_akin h (set_nth h i ph')).
  { eapply heap_set_r; eauto. replace ph' with (fst (setup_object t dk ph wl lo hi)) by (rewrite S; reflexivity). apply object_akin. }
  destruct e; cbn [fst]; auto. eapply heap_trans; [exact A|apply IH].
Qed.
(** After a loop without exception every listed object has been set up, the others are as before. *)
Definition after (t : tables) (dk : disk) (wl lo hi : R) (idx : list nat) (h : list phase) (j : nat) : option phase :=
  if in_dec Nat.eq_dec j idx then option_map (fun ph => fst (setup_object t dk ph wl lo hi)) (nth_error h j) else nth_error h j.
Lemma nth_set {A} (l : list A) i j a : nth_error (set_nth l i a) j = if Nat.eq_dec i j then option_map (fun _ => a) (nth_error l j) else nth_error l j.
Proof.
  destruct (Nat.eq_dec i j) as [<-|N]; [|now apply set_nth_other].
  destruct (nth_error l i) eqn:E; cbn.
  - apply set_nth_same. apply nth_error_Some. congruence.
  - apply nth_error_None in E. apply nth_error_None. now rewrite set_nth_length.
Qed.
Lemma after_cons t dk wl lo hi h i idx ph j : nth_error h i = Some ph ->
  after t dk wl lo hi idx (set_nth h i (fst (setup_object t dk ph wl lo hi))) j = after t dk wl lo hi (i :: idx) h j.
Proof.
  intros E. unfold after. rewrite nth_set. destruct (in_dec Nat.eq_dec j (i :: idx)) as [H|H].
  - destruct (Nat.eq_dec i j) as [->|N].
    + rewrite E. cbn [option_map]. destruct (in_dec Nat.eq_dec j idx); cbn [option_map]; auto. now rewrite object_idem.
    + destruct H as [H|H]; [contradiction|]. destruct (in_dec Nat.eq_dec j idx); [auto|contradiction].
  - destruct (Nat.eq_dec i j) as [->|N]; [exfalso; apply H; now left|].
    destruct (in_dec Nat.eq_dec j idx); auto. exfalso. apply H. now right.
Qed.
Lemma all_spec t dk wl lo hi idx : forall h h' e, setup_all t dk h idx wl lo hi = (h', e) -> (forall i, In i idx -> nth_error h i <> None) ->
  match e with
  | None => (forall j, nth_error h' j = after t dk wl lo hi idx h j) /\
            (forall i ph, In i idx -> nth_error h i = Some ph -> snd (setup_object t dk ph wl lo hi) = None)
  | Some e => exists pre i post ph, idx = pre ++ i :: post /\ nth_error h i = Some ph /\ snd (setup_object t dk ph wl lo hi) = Some e /\
            (forall k ph', In k pre -> nth_error h k = Some ph' -> snd (setup_object t dk ph' wl lo hi) = None) /\
            (forall j, nth_error h' j = after t dk wl lo hi (pre ++ [i]) h j)
  end.
Proof.
  induction idx as [|i idx IH]; intros h h' e H V; cbn [setup_all] in H.
  - assert (e = None) by congruence. assert (h' = h) by congruence. subst. split; [intros j; reflexivity|intros i ph []].
  - destruct (nth_error h i) as [ph|] eqn:E; [|exfalso; apply (V i); cbn; auto].
    destruct (setup_object t dk ph wl lo hi) as (ph' & e0) eqn:S.
    assert (P : ph' = fst (setup_object t dk ph wl lo hi)) by (rewrite S; reflexivity).
    destruct e0 as [e0|].
    + assert (e = Some e0) by congruence. assert (h' = set_nth h i ph') by congruence. subst e h'. exists [], i, idx, ph. cbn [app].
      split; [reflexivity|]. split; [auto|]. split; [rewrite S; reflexivity|]. split; [intros k x []|].
      intros j. rewrite P, <- (after_cons t dk wl lo hi h i [] ph j E). reflexivity.
    + assert (V' : forall k, In k idx -> nth_error (set_nth h i ph') k <> None).
      { intros k Hk. rewrite nth_set. specialize (V k (or_intror Hk)). destruct (Nat.eq_dec i k); auto. destruct (nth_error h k); cbn; congruence. }
      specialize (IH _ _ _ H V'). destruct e as [e|].
      * destruct IH as (pre & k & post & phk & -> & Ek & Sk & Hpre & Hj). rewrite P in Ek, Hpre, Hj. rewrite nth_set in Ek.
        exists (i :: pre), k, post. assert (X : exists ph0, nth_error h k = Some ph0 /\ snd (setup_object t dk ph0 wl lo hi) = Some e).
        { destruct (Nat.eq_dec i k) as [<-|N]; [|eauto]. rewrite E in Ek. cbn in Ek. assert (phk = fst (setup_object t dk ph wl lo hi)) by congruence. subst phk. rewrite object_idem, S in Sk. discriminate. }
        destruct X as (ph0 & X1 & X2). exists ph0. split; [reflexivity|]. split; [auto|]. split; [auto|]. split.
        -- intros k' x [<-|Hk'] Hx.
           ++ assert (x = ph) by congruence. subst. rewrite S. reflexivity.
           ++ specialize (Hpre k'). rewrite nth_set in Hpre. destruct (Nat.eq_dec i k') as [<-|N]; [|now apply Hpre].
              assert (x = ph) by congruence. subst. rewrite S. reflexivity.
        -- intros j. rewrite Hj. cbn [app]. now apply after_cons.
      * destruct IH as (Hj & Ho). rewrite P in Hj, Ho. split.
        -- intros j. rewrite Hj. now apply after_cons.
        -- intros k x [<-|Hk] Hx.
           ++ assert (x = ph) by congruence. subst. rewrite S. reflexivity.
           ++ specialize (Ho k). rewrite nth_set in Ho. destruct (Nat.eq_dec i k) as [<-|N]; [|now apply Ho].
              assert (x = ph) by congruence. subst. rewrite S. reflexivity.
Qed.
Lemma all_valid t dk wl lo hi idx : forall h h', setup_all t dk h idx wl lo hi = (h', None) -> forall i, In i idx -> nth_error h i <> None.
Proof.
  induction idx as [|i idx IH]; intros h h' H k Hk; [contradiction|]. cbn [setup_all] in H.
  destruct (nth_error h i) as [ph|] eqn:E; [|discriminate]. destruct (setup_object t dk ph wl lo hi) as (ph' & [e|]) eqn:S; [discriminate|].
  destruct Hk as [<-|Hk]; [congruence|]. specialize (IH _ _ H k Hk). rewrite nth_set in IH. destruct (Nat.eq_dec i k); [|auto].
  subst. congruence.
Qed.
Lemma all_related t dk wl lo hi idx : forall h g, heap_akin h g ->
  snd (setup_all t dk g idx wl lo hi) = snd (setup_all t dk h idx wl lo hi).
Proof.
  induction idx as [|i idx IH]; intros h g A; cbn [setup_all]; auto.
  pose proof (heap_nth _ _ i A) as N. destruct (nth_error h i) as [ph|] eqn:E, (nth_error g i) as [pg|] eqn:E'; try contradiction; [|reflexivity].
  pose proof (akin_object t dk _ _ wl lo hi N) as (S1 & _). pose proof (akin_snd t dk _ _ wl lo hi N) as S2.
  destruct (setup_object t dk ph wl lo hi) as (ph' & e) eqn:S, (setup_object t dk pg wl lo hi) as (pg' & e') eqn:S'.
  cbn [fst snd] in *. subst e'. destruct e; auto. apply IH. now apply heap_set.
Qed.
Lemma all_equal t dk wl lo hi idx h g h' : heap_akin h g -> setup_all t dk h idx wl lo hi = (h', None) ->
  exists g', setup_all t dk g idx wl lo hi = (g', None) /\ forall i, In i idx -> nth_error g' i = nth_error h' i.
Proof.
  intros A H. pose proof (all_related t dk wl lo hi idx h g A) as E. rewrite H in E. cbn [snd] in E.
  destruct (setup_all t dk g idx wl lo hi) as (g' & e) eqn:G. cbn [snd] in E. subst e. exists g'. split; auto. intros i Hi.
  destruct (all_spec _ _ _ _ _ _ _ _ _ H (all_valid _ _ _ _ _ _ _ _ H)) as (J & O).
  destruct (all_spec _ _ _ _ _ _ _ _ _ G (all_valid _ _ _ _ _ _ _ _ G)) as (J' & O').
  rewrite J, J'. unfold after. destruct (in_dec Nat.eq_dec i idx); [|contradiction].
  pose proof (heap_nth _ _ i A) as N. destruct (nth_error h i) as [ph|] eqn:E1, (nth_error g i) as [pg|] eqn:E2; try contradiction; [|reflexivity].
  cbn. destruct (akin_object t dk _ _ wl lo hi N) as (_ & Q). rewrite Q; auto. eauto.
Qed.
Lemma gather_same {A} (l m : list A) idx : (forall i, In i idx -> nth_error m i = nth_error l i) -> gather m idx = gather l idx.
Proof.
  unfold gather. induction idx as [|i idx IH]; intros H; [reflexivity|]. cbn [traverse].
  rewrite (H i) by (left; reflexivity). rewrite IH by (intros; apply H; right; auto). reflexivity.
Qed.
Lemma diffract_akin z t dk h g q b m lo hi det : heap_akin h g ->
  fst (shared_diffract z t dk g q b m lo hi det) = fst (shared_diffract z t dk h q b m lo hi det).
Proof.
  intros A. unfold shared_diffract. destruct (match det with None => _ | Some d => _ end) as [[lo' hi']|e]; auto.
  destruct (setup_all t dk h (snd q) (b_wavelength b) lo' hi') as (h' & [e|]) eqn:H.
  - pose proof (all_related t dk (b_wavelength b) lo' hi' (snd q) h g A) as E. rewrite H in E. cbn [snd] in E.
    destruct (setup_all t dk g (snd q) (b_wavelength b) lo' hi') as (g' & e'). cbn [snd] in E. subst e'. reflexivity.
  - destruct (all_equal _ _ _ _ _ _ _ _ _ A H) as (g' & -> & G). cbn [fst]. unfold view. rewrite (gather_same h' g' _ G). reflexivity.
Qed.
Lemma diffract_heap z t dk h q b m lo hi det : heap_akin h (snd (shared_diffract z t dk h q b m lo hi det)).
Proof.
  unfold shared_diffract. destruct (match det with None => _ | Some d => _ end) as [[lo' hi']|e]; [|apply heap_refl].
  pose proof (all_akin t dk (b_wavelength b) lo' hi' (snd q) h) as A.
  destruct (setup_all t dk h (snd q) (b_wavelength b) lo' hi') as (h' & [e|]); exact A.
Qed.

(** ** Histories *)
Lemma step_heap z t s o : heap_akin (sh_phases s) (sh_phases (shared_step z t s o)).
Proof.
  destruct o as [k m tm|k dk b m lo hi det]; cbn [shared_step].
  - destruct (nth_error (sh_pcs s) k) as [(p & idx)|]; apply heap_refl.
  - destruct (nth_error (sh_pcs s) k) as [q|]; [apply diffract_heap|apply heap_refl].
Qed.
Lemma run_heap z t ops : forall s, heap_akin (sh_phases s) (sh_phases (shared_run z t ops s)).
Proof.
  unfold shared_run. induction ops as [|o ops IH]; intros s; cbn [fold_left]; [apply heap_refl|].
  eapply heap_trans; [apply step_heap|apply IH].
Qed.
Lemma step_pc z t s s' k o : nth_error (sh_pcs s') k = nth_error (sh_pcs s) k ->
  nth_error (sh_pcs (shared_step z t s o)) k = nth_error (sh_pcs (if moves k o then shared_step z t s' o else s')) k.
Proof.
  intros E. destruct o as [j m tm|j dk b m lo hi det]; cbn [shared_step moves].
  - destruct (Nat.eqb_spec j k) as [->|N].
    + rewrite E. destruct (nth_error (sh_pcs s) k) as [(p & idx)|] eqn:F; cbn [sh_pcs].
      * rewrite !nth_set. destruct (Nat.eq_dec k k); [|contradiction]. rewrite E, F. reflexivity.
      * congruence.
    + rewrite E. destruct (nth_error (sh_pcs s) j) as [(p & idx)|]; cbn [sh_pcs]; auto. now apply set_nth_other.
  - destruct (nth_error (sh_pcs s) j) as [q|]; cbn [sh_pcs]; auto.
Qed.
Lemma run_pc z t ops k : forall s s', nth_error (sh_pcs s') k = nth_error (sh_pcs s) k ->
  nth_error (sh_pcs (shared_run z t ops s)) k = nth_error (sh_pcs (shared_run z t (filter (moves k) ops) s')) k.
Proof.
  unfold shared_run. induction ops as [|o ops IH]; intros s s' E; cbn [fold_left filter]; auto.
  pose proof (step_pc z t s s' k o E) as F. destruct (moves k o); cbn [fold_left]; apply IH; symmetry; exact F.
Qed.
(** Polycrystals that share Phase objects do not disturb each other: whatever was called before,
    on any of them, successfully or not, and whatever the CIF files contained at that time, a call
    of diffract gives the result it would have given after this polycrystal's own transforms alone. *)
Lemma pC87_no_interference : forall z t s ops k dk b m lo hi det,
  call_diffract z t (shared_run z t ops s) k dk b m lo hi det =
  call_diffract z t (shared_run z t (filter (moves k) ops) s) k dk b m lo hi det.
Proof.
  intros z t s ops k dk b m lo hi det. unfold call_diffract. rewrite (run_pc z t ops k s s eq_refl).
  destruct (nth_error (sh_pcs (shared_run z t (filter (moves k) ops) s)) k) as [q|]; auto. cbn [option_map]. f_equal.
  apply diffract_akin. eapply heap_trans; [apply heap_sym, run_heap|apply run_heap].
Qed.
(** Nothing ever changes what a phase is, and structure factors that were set by hand for a phase
    without CIF file stay. *)
Lemma pC87_material_kept : forall z t s ops i ph, nth_error (sh_phases s) i = Some ph ->
  exists ph', nth_error (sh_phases (shared_run z t ops s)) i = Some ph' /\ same_material ph ph' /\
    (ph_cif ph = None -> ph_sf ph' = ph_sf ph).
Proof.
  intros z t s ops i ph H. pose proof (heap_nth _ _ i (run_heap z t ops s)) as N. rewrite H in N.
  destruct (nth_error (sh_phases (shared_run z t ops s)) i) as [ph'|]; [|contradiction]. exists ph'. split; auto.
Qed.

(** ** Success *)
Lemma object_ok_iff t dk ph wl lo hi : snd (setup_object t dk ph wl lo hi) = None <-> readable t dk ph.
Proof.
  unfold setup_object. destruct (ph_cif ph) as [cif|] eqn:E.
  - rewrite <- (pC87_readable_iff t dk ph cif (planes_between t ph wl lo hi) E). unfold planes_between.
    destruct (structure_batch _ _ _ _ _ _) as [F|e]; cbn; split; intros H; eauto; try discriminate. now destruct H.
  - cbn. split; auto. intros _. now left.
Qed.
Lemma object_planes t dk ph wl lo hi : readable t dk ph -> fst (setup_object t dk ph wl lo hi) = setup_planes (crystallography t dk) ph wl lo hi.
Proof.
  intros H. unfold setup_object, setup_planes. cbn [crystallography x_genhkl x_structure].
  destruct (ph_cif ph) as [cif|] eqn:E; [|reflexivity].
  rewrite <- (pC87_readable_iff t dk ph cif (planes_between t ph wl lo hi) E) in H. destruct H as (F & H). unfold planes_between in H.
  rewrite H. reflexivity.
Qed.
Lemma gather_map_eq {A} (l m : list A) (f : A -> A) idx : (forall i, In i idx -> nth_error m i = option_map f (nth_error l i)) ->
  gather m idx = let* out := gather l idx in Ok (map f out).
Proof.
  unfold gather. induction idx as [|i idx IH]; intros H; [reflexivity|]. cbn [traverse].
  rewrite (H i) by (left; reflexivity). destruct (nth_error l i); cbn [option_map bind]; auto.
  rewrite IH by (intros; apply H; right; auto).
  destruct (traverse (fun i0 => match nth_error l i0 with Some a0 => Ok a0 | None => Err IndexError end) idx); reflexivity.
Qed.
Lemma all_readable t dk wl lo hi idx : forall h, (forall i, In i idx -> exists ph, nth_error h i = Some ph /\ readable t dk ph) ->
  exists h', setup_all t dk h idx wl lo hi = (h', None).
Proof.
  intros h H. destruct (setup_all t dk h idx wl lo hi) as (h' & e) eqn:E. exists h'.
  assert (V : forall i, In i idx -> nth_error h i <> None) by (intros i Hi; destruct (H i Hi) as (ph & -> & _); discriminate).
  pose proof (all_spec _ _ _ _ _ _ _ _ _ E V) as S. destruct e as [e|]; auto. exfalso.
  destruct S as (pre & i & post & ph & -> & Ei & Se & _). destruct (H i) as (ph' & E' & R); [apply in_app_iff; right; now left|].
  assert (ph' = ph) by congruence. subst. rewrite <- object_ok_iff with (wl := wl) (lo := lo) (hi := hi) in R. congruence.
Qed.
(** If all files can be read, a call on shared objects is the call on a polycrystal of its own
    (so the theorems about diffract, C10 - C18, hold for it), and afterwards the shared objects
    are that polycrystal's phases. *)
Lemma pC87_same_as_unshared : forall z t dk h q p b m lo hi det,
  view h q = Ok p -> Forall (readable t dk) (pc_phases p) ->
  fst (shared_diffract z t dk h q b m lo hi det) = fst (diffract z (crystallography t dk) p b m lo hi det) /\
  view (snd (shared_diffract z t dk h q b m lo hi det)) q = Ok (snd (diffract z (crystallography t dk) p b m lo hi det)).
Proof.
  intros z t dk h q p b m lo hi det V R. unfold view in V. destruct (gather h (snd q)) as [phs|] eqn:G; cbn [bind] in V; [|discriminate].
  assert (p = with_phases (fst q) phs) by congruence. clear V. subst p. cbn [with_phases pc_phases] in R.
  assert (I : forall i, In i (snd q) -> exists ph, nth_error h i = Some ph /\ readable t dk ph).
  { intros i Hi. pose proof (gather_spec _ _ _ G) as F. destruct (Forall2_in_l _ _ _ _ F Hi) as (ph & Hin & E). exists ph. split; auto.
    eapply Forall_forall in R; eauto. }
  unfold shared_diffract, diffract.
  replace (match det with None => Ok (lo, hi) | Some d => bragg_bounds (with_phases (fst q) phs) d b lo end)
     with (match det with None => Ok (lo, hi) | Some d => bragg_bounds (fst q) d b lo end) by (destruct det; reflexivity).
  destruct (match det with None => _ | Some d => _ end) as [[lo' hi']|e].
  2:{ cbn [fst snd]. split; auto. unfold view. rewrite G. reflexivity. }
  destruct (all_readable t dk (b_wavelength b) lo' hi' (snd q) h I) as (h' & E). rewrite E.
  destruct (all_spec _ _ _ _ _ _ _ _ _ E (all_valid _ _ _ _ _ _ _ _ E)) as (J & _).
  assert (G' : gather h' (snd q) = Ok (map (fun ph => setup_planes (crystallography t dk) ph (b_wavelength b) lo' hi') phs)).
  { rewrite (gather_map_eq h h' (fun ph => setup_planes (crystallography t dk) ph (b_wavelength b) lo' hi')).
    - rewrite G. reflexivity.
    - intros i Hi. rewrite J. unfold after. destruct (in_dec Nat.eq_dec i (snd q)); [|contradiction].
      destruct (I i Hi) as (ph & -> & Rp). cbn. f_equal. now apply object_planes. }
  unfold view. rewrite G'. cbn [bind fst snd with_phases pc_phases pc_volumes pc_U pc_eps pc_map pc_eB pc_mesh_lab pc_mesh_sample pc_eps_sample pc_U_sample].
  split; [reflexivity|]. rewrite G'. reflexivity.
Qed.
Lemma moved_alone z t k : forall ops s q p, nth_error (sh_pcs s) k = Some q -> view (sh_phases s) q = Ok p ->
  let s' := shared_run z t (filter (moves k) ops) s in
  sh_phases s' = sh_phases s /\ exists q', nth_error (sh_pcs s') k = Some q' /\ view (sh_phases s) q' = Ok (alone k ops p) /\
    pc_phases (alone k ops p) = pc_phases p.
Proof.
  induction ops as [|o ops IH]; intros s q p Hq V; cbn [filter].
  - split; [reflexivity|]. exists q. auto.
  - unfold alone. cbn [fold_left]. destruct o as [j m tm|j dk b m lo hi det]; cbn [moves]; [|apply (IH s q p Hq V)].
    destruct (Nat.eqb_spec j k) as [->|N]; [|apply (IH s q p Hq V)].
    unfold shared_run. cbn [fold_left]. set (s1 := shared_step z t s (ShTransform k m tm)).
    destruct q as [p0 idx].
    assert (E : s1 = Shared (sh_phases s) (set_nth (sh_pcs s) k (transform p0 m tm, idx))) by (unfold s1, shared_step; now rewrite Hq).
    assert (Hk : nth_error (sh_pcs s1) k = Some (transform p0 m tm, idx)).
    { rewrite E. cbn [sh_pcs]. apply set_nth_same. now apply (nth_error_Some (sh_pcs s)); rewrite Hq. }
    assert (Vk : view (sh_phases s1) (transform p0 m tm, idx) = Ok (transform p m tm)).
    { rewrite E. cbn [sh_phases]. revert V. unfold view. cbn [fst snd]. destruct (gather (sh_phases s) idx) as [phs|]; cbn [bind]; [|discriminate].
      intros V. assert (p = with_phases p0 phs) by congruence. subst p. reflexivity. }
    destruct (IH s1 _ _ Hk Vk) as (A & q' & B & C & D).
    assert (F : sh_phases s1 = sh_phases s) by (rewrite E; reflexivity). rewrite F in A, C.
    split; [exact A|]. exists q'. split; [exact B|]. split; [exact C|]. exact D.
Qed.
(** Both together: after any history on any of the polycrystals, a call whose files can be read
    gives exactly what a polycrystal with phases of its own gives after this one's transforms. *)
Lemma pC87_as_if_alone : forall z t s ops k q p dk b m lo hi det,
  nth_error (sh_pcs s) k = Some q -> view (sh_phases s) q = Ok p -> Forall (readable t dk) (pc_phases p) ->
  call_diffract z t (shared_run z t ops s) k dk b m lo hi det =
  Some (fst (diffract z (crystallography t dk) (alone k ops p) b m lo hi det)).
Proof.
  intros z t s ops k q p dk b m lo hi det Hq V Rd. rewrite pC87_no_interference.
  destruct (moved_alone z t k ops s q p Hq V) as (A & q' & B & C & D). unfold call_diffract. rewrite A, B. cbn [option_map]. f_equal.
  refine (proj1 (pC87_same_as_unshared z t dk _ q' _ b m lo hi det C _)). now rewrite D.
Qed.
(** After a call without exception from the files, the reflections and structure factors of every
    phase used belong together: one value per reflection, the textbook sum for the first block. *)
Lemma pC87_up_to_date : forall t dk h idx wl lo hi h' i ph, setup_all t dk h idx wl lo hi = (h', None) -> In i idx ->
  nth_error h i = Some ph ->
  exists ph', nth_error h' i = Some ph' /\ same_material ph ph' /\ ph_hkl ph' = Some (planes_between t ph wl lo hi) /\
    (ph_cif ph = None -> ph_sf ph' = ph_sf ph) /\
    (ph_cif ph <> None -> exists st u, crystal_of t dk ph st u /\
       ph_sf ph' = Some (map (fun h => (F_re st u h, F_im st u h)) (planes_between t ph wl lo hi))).
Proof.
  intros t dk h idx wl lo hi h' i ph H Hi E. destruct (all_spec _ _ _ _ _ _ _ _ _ H (all_valid _ _ _ _ _ _ _ _ H)) as (J & O).
  exists (fst (setup_object t dk ph wl lo hi)). rewrite J. unfold after. destruct (in_dec Nat.eq_dec i idx); [|contradiction].
  rewrite E. split; [reflexivity|]. split; [apply object_kept|]. split; [apply object_hkl|]. split.
  - intros C. unfold setup_object. now rewrite C.
  - intros C. specialize (O i ph Hi E). unfold setup_object in *. destruct (ph_cif ph) as [cif|] eqn:Ec; [|contradiction].
    fold (planes_between t ph wl lo hi) in *. destruct (structure_batch t dk _ _ _ _) as [F|e] eqn:S; cbn in O; [|discriminate]. cbn [fst ph_sf].
    apply batch_inv in S as (name & bl & others & ops & a & be & c & al & bt & ga & more & E1 & E2 & E3 & E4).
    eexists _, _. split; [exists cif, name, bl, others, ops, a, be, c, al, bt, ga, more; repeat split; eauto|].
    destruct (factors_known _ _ _ _ E4) as (K1 & K2). rewrite pC61_formula in E4 by auto. congruence.
Qed.
(** ** Failure *)
(** If the file of the phase at position i cannot be used, the call raises that error; the phases
    before it are completely set up, this phase has the reflections of the new call but still its
    old structure factors, and all other phases are as before. *)
Lemma pC87_half_updated : forall z t dk h p pre i post b m lo hi ph cif e,
  nth_error h i = Some ph -> ph_cif ph = Some cif ->
  structure_batch t dk (planes_between t ph (b_wavelength b) lo hi) (ph_cell ph) (ph_sg ph) cif = Err e ->
  (forall k, In k pre -> k <> i /\ exists ph', nth_error h k = Some ph' /\ readable t dk ph') ->
  exists h', shared_diffract z t dk h (p, pre ++ i :: post) b m lo hi None = (Err e, h') /\
    nth_error h' i = Some (Phase (ph_cell ph) (ph_sg ph) (ph_cif ph) (Some (planes_between t ph (b_wavelength b) lo hi)) (ph_sf ph)) /\
    (forall k ph', In k pre -> nth_error h k = Some ph' -> nth_error h' k = Some (setup_planes (crystallography t dk) ph' (b_wavelength b) lo hi)) /\
    (forall k, ~ In k pre -> k <> i -> nth_error h' k = nth_error h k).
Proof.
  intros z t dk h p pre i post b m lo hi ph cif e Hi Hc He Hpre. unfold shared_diffract. cbn [snd].
  assert (So : setup_object t dk ph (b_wavelength b) lo hi = (Phase (ph_cell ph) (ph_sg ph) (ph_cif ph) (Some (planes_between t ph (b_wavelength b) lo hi)) (ph_sf ph), Some e)).
  { unfold setup_object. rewrite Hc. fold (planes_between t ph (b_wavelength b) lo hi). rewrite He. reflexivity. }
  assert (A : exists h', setup_all t dk h (pre ++ i :: post) (b_wavelength b) lo hi = (h', Some e) /\
      forall j, nth_error h' j = after t dk (b_wavelength b) lo hi (pre ++ [i]) h j).
  { revert h Hi Hpre. induction pre as [|k pre IH]; intros h Hi Hpre; cbn [app setup_all].
    - rewrite Hi, So. eexists. split; [reflexivity|]. intros j. rewrite <- (after_cons t dk (b_wavelength b) lo hi h i [] ph j Hi), So. reflexivity.
    - destruct (Hpre k (or_introl eq_refl)) as (N & pk & Ek & Rk). rewrite Ek.
      pose proof (proj2 (object_ok_iff t dk pk (b_wavelength b) lo hi) Rk) as Ok_.
      destruct (setup_object t dk pk (b_wavelength b) lo hi) as (pk' & ek) eqn:Sk. cbn [snd] in Ok_. subst ek.
      assert (P : pk' = fst (setup_object t dk pk (b_wavelength b) lo hi)) by (rewrite Sk; reflexivity).
      destruct (IH (set_nth h k pk')) as (h' & E & J).
      + rewrite set_nth_other; auto.
      + intros k' Hk'. destruct (Hpre k' (or_intror Hk')) as (N' & x & Ex & Rx). split; auto. rewrite nth_set.
        destruct (Nat.eq_dec k k') as [->|]; [|eauto]. rewrite Ex. cbn. exists pk'. split; auto. assert (x = pk) by congruence. subst x.
        pose proof (object_kept t dk pk (b_wavelength b) lo hi) as (M1 & M2 & M3). rewrite <- P in M1, M2, M3.
        destruct Rk as [Rk|(st & u & Cr & Rk)]; [left; congruence|right]. exists st, u. split; auto.
        destruct Cr as (cf & nm & bl & ot & op & a1 & a2 & a3 & a4 & a5 & a6 & mo & C1 & C2 & C3 & C4 & C5).
        exists cf, nm, bl, ot, op, a1, a2, a3, a4, a5, a6, mo. rewrite M1, M2, M3. auto.
      + exists h'. split; auto. intros j. rewrite J, P. now apply after_cons. }
  destruct A as (h' & -> & J). exists h'. split; [reflexivity|]. split; [|split].
  - rewrite J. unfold after. destruct (in_dec Nat.eq_dec i (pre ++ [i])) as [_|X]; [|exfalso; apply X; apply in_app_iff; right; now left].
    rewrite Hi. cbn [option_map]. rewrite So. reflexivity.
  - intros k ph' Hk Ek. rewrite J. unfold after. destruct (in_dec Nat.eq_dec k (pre ++ [i])) as [_|X]; [|exfalso; apply X; apply in_app_iff; auto].
    rewrite Ek. cbn [option_map]. f_equal. apply object_planes. destruct (Hpre k Hk) as (_ & x & Ex & Rx). congruence.
  - intros k H1 H2. rewrite J. unfold after. destruct (in_dec Nat.eq_dec k (pre ++ [i])) as [X|X]; auto.
    exfalso. apply in_app_iff in X as [X|[X|[]]]; auto.
Qed.
(** The intensity column comes from the first block of the phase's file: |F|^2 of the row's own
    reflection, and rows with |F|^2 <= 1e-6 do not exist; 1 for a phase without file that never
    had structure factors. *)
Lemma pC87_structure_column : forall z t dk h q p b m lo hi det d h' row,
  view h q = Ok p -> Forall (readable t dk) (pc_phases p) ->
  shared_diffract z t dk h q b m lo hi det = (Ok d, h') -> In row (pd_peaks d) ->
  exists e i ph hkl sf, in_phase p e i /\ nth_error (pc_phases p) i = Some ph /\
    has d row "grain_index" (INR e) /\ has d row "phase_number" (INR i) /\ has_vec d row "h" "k" "l" hkl /\
    has d row "structure_factors" sf /\
    (ph_cif ph = None -> ph_sf ph = None -> sf = 1) /\
    (ph_cif ph <> None -> exists st u, crystal_of t dk ph st u /\ sf = intensity (F_re st u hkl, F_im st u hkl) /\ / 10^6 < sf).
Proof.
  intros z t dk h q p b m lo hi det d h' row V Rd H Hin. destruct (pC87_same_as_unshared z t dk h q p b m lo hi det V Rd) as (E1 & _).
  rewrite H in E1. cbn [fst] in E1. destruct (diffract z (crystallography t dk) p b m lo hi det) as (r & p') eqn:D. cbn [fst] in E1. subst r.
  destruct (pC10_peak_contents _ _ _ _ _ _ _ _ _ _ _ D Hin) as (e & i & ph' & hkl & sf & tm & G0 & G & c & s & v & P1 & P2 & P3 & _ & _ & _ & _ & _ & _ & C1 & C2 & C3 & C4 & _).
  unfold diffract in D. destruct (match det with None => _ | Some d => _ end) as [[lo' hi']|er]; [|discriminate].
  assert (Ep : p' = with_phases p (map (fun ph => setup_planes (crystallography t dk) ph (b_wavelength b) lo' hi') (pc_phases p))) by (symmetry; exact (f_equal snd D)).
  rewrite Ep in P2. cbn [with_phases pc_phases] in P2. rewrite nth_error_map in P2. destruct (nth_error (pc_phases p) i) as [ph|] eqn:Ei; cbn in P2; [|discriminate].
  assert (Eph : ph' = setup_planes (crystallography t dk) ph (b_wavelength b) lo' hi') by congruence. clear P2.
  exists e, i, ph, hkl, sf. split; auto. split; auto. split; auto. split; auto. split; auto. split; auto.
  destruct P3 as (hs & j & Q1 & Q2 & Q3). rewrite Eph in Q1, Q3. cbn [setup_planes ph_hkl ph_sf] in Q1, Q3. split.
  - intros N1 N2. rewrite N1, N2 in Q3. exact Q3.
  - intros N. destruct (ph_cif ph) as [cif|] eqn:Ec; [|contradiction]. destruct Q3 as (re & im & Q4 & Q5 & Q6).
    assert (Rp : readable t dk ph) by (eapply Forall_forall in Rd; eauto; eapply nth_error_In; eauto).
    destruct Rp as [Rp|(st & u & Cr & K1 & K2)]; [congruence|]. exists st, u. split; auto. split; auto.
    destruct Cr as (cf & nm & bl & ot & op & a1 & a2 & a3 & a4 & a5 & a6 & mo & W1 & W2 & W3 & W4 & -> & ->).
    assert (cf = cif) by congruence. subst cf. cbn [crystallography x_structure x_genhkl] in Q1, Q4. unfold structure_batch in Q4.
    rewrite W2 in Q4. cbn [bind cif_open] in Q4. rewrite W3 in Q4. cbn [bind] in Q4. rewrite W4 in Q4. cbn [bind cell_of] in Q4.
    rewrite pC61_formula in Q4 by auto. rewrite nth_error_map in Q4. rewrite <- W4 in Q4. assert (Eh : hs = tb_genhkl t (ph_cell ph) (sin lo' / b_wavelength b) (sin hi' / b_wavelength b) (ph_sg ph)) by congruence.
    rewrite <- Eh, Q2 in Q4. cbn [option_map] in Q4. unfold intensity. cbn [fst snd]. rewrite Q5.
    set (fr := F_re _ _ _) in *. set (fi := F_im _ _ _) in *. clearbody fr fi. assert (re = fr) by congruence. assert (im = fi) by congruence. subst re im. reflexivity.
Qed.

(** The theorems about single polycrystals that ask for one structure factor per reflection apply. *)
Lemma pC87_one_per_reflection : forall t dk, xtal_ok (crystallography t dk).
Proof.
  intros t dk hkl cell sg cif. cbn [crystallography x_structure]. destruct (structure_batch t dk hkl cell sg cif) as [F|e] eqn:E.
  - apply batch_inv in E as (name & b & others & ops & a & be & c & al & bt & ga & more & _ & _ & _ & E). eapply pC61_shape; eauto.
  - apply map_length.
Qed.

(** ** Concrete cases *)
Definition ex_cell : list R := [4; 4; 4; 90; 90; 90].
Definition ex_tables : tables :=
  Tables (fun _ => mI) (fun _ a _ _ => if Req_EM_T a 0 then two_planes else one_plane)
    (fun s => if String.eqb s "P1" then Ok [(mI, vzero)] else Err KeyError)
    (fun s => if String.eqb s "C" then Some ([], [], 6) else None) (fun _ => V3 (1/4) (1/4) (1/4)).
Definition ex_block : cif_block := Block [Atom "C" vzero 1 1 NoAdp] (fun _ => None).
Definition ex_disk : disk := fun s => if String.eqb s "c.cif" then Ok [("first"%string, Ok ex_block); ("second"%string, Err KeyError)] else Err FileNotFoundError.
Definition gone : disk := fun _ => Err FileNotFoundError.
Definition cif_phase : phase := make_phase ex_cell "P1" (Some "c.cif"%string).
Definition ex_struct : structure := Structure [Atom "C" vzero 1 1 NoAdp] (fun _ => None) [(mI, vzero)] (tb_formfactor ex_tables) (tb_cellstar ex_tables).
Lemma ex_crystal ph : same_material cif_phase ph -> crystal_of ex_tables ex_disk ph ex_struct (Cell 4 4 4 90 90 90).
Proof.
  intros (A & B & C). exists "c.cif"%string, "first"%string, ex_block, [("second"%string, Err KeyError)], [(mI, vzero)], 4, 4, 4, 90, 90, 90, [].
  rewrite A, B, C. repeat split.
Qed.
Lemma ex_known : known_types ex_struct.
Proof. intros a [<-|[]]. cbn. discriminate. Qed.
Lemma ex_readable ph : same_material cif_phase ph -> readable ex_tables ex_disk ph.
Proof. intros H. right. exists ex_struct, (Cell 4 4 4 90 90 90). split; [now apply ex_crystal|]. split; [discriminate|apply ex_known]. Qed.
Lemma ex_F h : F_re ex_struct (Cell 4 4 4 90 90 90) h = 6 /\ F_im ex_struct (Cell 4 4 4 90 90 90) h = 0.
Proof.
  unfold F_re, F_im, F_sum, term, displacement_factor, form_factor, dispersion_of, image_of, ex_struct.
  cbn [st_atoms st_ops map at_occ at_multi at_adp at_type at_pos List.length fst snd st_formfactor tb_formfactor ex_tables String.eqb Ascii.eqb Bool.eqb combine st_dispersion INR].
  unfold sum_list; cbn [fold_right]. rewrite mv_I.
  replace (2 * PI * dot h (vadd vzero vzero)) with 0 by (destruct h; vunf; ring). rewrite cos_0, sin_0. split; field.
Qed.
(** After a failing call the two attributes of a phase need not belong together: here one
    reflection and two structure factors.  (The next call repairs it: no_interference.) *)
Lemma pC87_attributes_consistent_refuted : forall z p b m, 0 < b_wavelength b ->
  exists h1 h2 ph, snd (shared_diffract z ex_tables ex_disk [cif_phase] (p, [0%nat]) b m 0 1 None) = h1 /\
    shared_diffract z ex_tables gone h1 (p, [0%nat]) b m (PI / 2) 1 None = (Err FileNotFoundError, h2) /\
    nth_error h2 0 = Some ph /\ ph_hkl ph = Some one_plane /\ ph_sf ph = Some [(6, 0); (6, 0)] /\ List.length one_plane = 1%nat.
Proof.
  intros z p b m W. set (h1 := snd (shared_diffract z ex_tables ex_disk [cif_phase] (p, [0%nat]) b m 0 1 None)).
  assert (Z0 : sin 0 / b_wavelength b = 0) by (rewrite sin_0; field; lra).
  assert (P2 : forall ph, planes_between ex_tables ph (b_wavelength b) 0 1 = two_planes).
  { intros ph. unfold planes_between. cbn [tb_genhkl ex_tables]. rewrite Z0. destruct (Req_EM_T 0 0); [reflexivity|contradiction]. }
  assert (P1 : forall ph, planes_between ex_tables ph (b_wavelength b) (PI / 2) 1 = one_plane).
  { intros ph. unfold planes_between. cbn [tb_genhkl ex_tables]. rewrite sin_PI2. destruct (Req_EM_T (1 / b_wavelength b) 0) as [E|]; [|reflexivity].
    exfalso. assert (0 < 1 / b_wavelength b) by (apply Rdiv_lt_0_compat; lra). lra. }
  assert (H1 : h1 = [Phase ex_cell "P1" (Some "c.cif"%string) (Some two_planes) (Some [(6, 0); (6, 0)])]).
  { unfold h1, shared_diffract. cbn [snd].
    destruct (all_readable ex_tables ex_disk (b_wavelength b) 0 1 [0%nat] [cif_phase]) as (h' & E).
    { intros i [<-|[]]. exists cif_phase. split; [reflexivity|]. apply ex_readable. repeat split. }
    rewrite E. cbn [snd].
    destruct (pC87_up_to_date _ _ _ _ _ _ _ _ 0%nat cif_phase E (or_introl eq_refl) eq_refl) as (ph & G1 & (G2 & G3 & G4) & G5 & _ & G6).
    destruct G6 as (st & u & Cr & Hs); [discriminate|].
    assert (Cr' : st = ex_struct /\ u = Cell 4 4 4 90 90 90).
    { destruct Cr as (cf & nm & bl & ot & op & a1 & a2 & a3 & a4 & a5 & a6 & mo & C1 & C2 & C3 & C4 & C5 & C6).
      cbn [cif_phase make_phase ph_cif ph_sg ph_cell] in C1, C3, C4. assert (cf = "c.cif"%string) by congruence. subst cf. cbn in C2, C3. unfold ex_cell in C4.
      assert (bl = ex_block) by congruence. assert (op = [(mI, vzero)]) by congruence. subst bl op.
      assert (a1 = 4 /\ a2 = 4 /\ a3 = 4 /\ a4 = 90 /\ a5 = 90 /\ a6 = 90) as (-> & -> & -> & -> & -> & ->) by (repeat split; congruence). split; auto. }
    destruct Cr' as (-> & ->). rewrite P2 in G5, Hs. unfold two_planes in Hs. cbn [map] in Hs.
    destruct (ex_F (V3 (-1) 1 0)) as (F1 & F2). destruct (ex_F (V3 (-1) (-1) 0)) as (F3 & F4). rewrite F1, F2, F3, F4 in Hs.
    assert (L : len h' = 1%nat).
    { pose proof (all_akin ex_tables ex_disk (b_wavelength b) 0 1 [0%nat] [cif_phase]) as A. rewrite E in A. cbn [fst] in A. apply Forall2_len in A. cbn in A. auto. }
    destruct h' as [|x [|y l]]; cbn in L, G1; try discriminate. assert (x = ph) by congruence. subst x. f_equal.
    destruct ph as [c1 s1 f1 k1 q1]. cbn in *. congruence. }
  destruct (pC87_half_updated z ex_tables gone h1 p [] 0%nat [] b m (PI / 2) 1
     (Phase ex_cell "P1" (Some "c.cif"%string) (Some two_planes) (Some [(6, 0); (6, 0)])) "c.cif" FileNotFoundError) as (h2 & D & N & _).
  { rewrite H1. reflexivity. } { reflexivity. } { reflexivity. } { intros k []. }
  exists h1, h2, (Phase ex_cell "P1" (Some "c.cif"%string) (Some one_plane) (Some [(6, 0); (6, 0)])).
  split; [reflexivity|]. split; [exact D|]. rewrite P1 in N. cbn [ph_cell ph_sg ph_cif ph_sf] in N. split; [exact N|]. repeat split.
Qed.
Lemma cif_pc : exists me p, build_mesh ex_coord ex_enod = Ok me /\
  make_polycrystal (crystallography ex_tables ex_disk) me (One mI) (One mzero) [cif_phase] (Some [0]) = Ok p /\
  pc_map p = MapTensor [0] /\ pc_phases p = [cif_phase] /\ pc_U p = [mI] /\ pc_eB p = [mI] /\ pc_mesh_lab p = me /\
  me_espherecentroids me = [V3 7 1 (9/4)].
Proof.
  destruct ex_mesh as (me & Hb & Hs & Hc & He). exists me.
  assert (EB : instantiate_eB (crystallography ex_tables ex_disk) [mI] [mzero] [cif_phase] (MapTensor [0]) 1 = Ok [mI]).
  { unfold instantiate_eB. cbn [map_values eB_loop repeat]. rewrite where_00. unfold gather. cbn [traverse nth_error bind].
    change (x_form_b (crystallography ex_tables ex_disk) (ph_cell cif_phase)) with mI. rewrite pC20_zero_strain. reflexivity. }
  unfold make_polycrystal. rewrite Hc, He. unfold ex_coord, ex_enod. cbn [traverse gather_tet nth_error bind List.length].
  cbn [instantiate_mats instantiate_phase bind repeat]. rewrite EB. cbn [bind]. eexists. split; [exact Hb|]. split; [reflexivity|]. repeat split; auto.
Qed.
(** A call on a phase with a CIF file that returns a table with a row. *)
Lemma xC87_table : exists z q p b m d h' row,
  view [cif_phase] q = Ok p /\ Forall (readable ex_tables ex_disk) (pc_phases p) /\
  shared_diffract z ex_tables ex_disk [cif_phase] q b m 0 1 None = (Ok d, h') /\ In row (pd_peaks d) /\
  has d row "structure_factors" 36.
Proof.
  destruct big_beam as (b & Hb & Hk & Hin). destruct cif_pc as (me & p & B0 & Mk & H4 & H5 & H6 & H7 & H8 & H9).
  set (x := crystallography ex_tables ex_disk) in *.
  assert (RP : reachable_pc x p).
  { apply (rpc_make _ ex_coord ex_enod me [] me (One mI) (One mzero) [cif_phase] (Some [0]) p); auto. repeat constructor. }
  assert (Rd : readable ex_tables ex_disk cif_phase) by (apply ex_readable; repeat split).
  assert (V : view [cif_phase] (p, [0%nat]) = Ok p).
  { unfold view, gather. cbn [snd fst traverse nth_error bind]. f_equal. destruct p. cbn in H5. subst. reflexivity. }
  assert (W : 0 < b_wavelength b \/ ~ 0 < b_wavelength b) by lra.
  assert (PL : planes_between ex_tables cif_phase (b_wavelength b) 0 1 = two_planes).
  { unfold planes_between. cbn [tb_genhkl ex_tables]. rewrite sin_0. unfold Rdiv. rewrite Rmult_0_l. destruct (Req_EM_T 0 0); [reflexivity|contradiction]. }
  assert (SP : setup_planes x cif_phase (b_wavelength b) 0 1 = Phase ex_cell "P1" (Some "c.cif"%string) (Some two_planes) (Some [(6, 0); (6, 0)])).
  { unfold setup_planes. cbn [cif_phase make_phase ph_cif ph_cell ph_sg]. f_equal.
    - f_equal. exact PL.
    - f_equal. change (x_genhkl x ex_cell (sin 0 / b_wavelength b) (sin 1 / b_wavelength b) "P1") with (planes_between ex_tables cif_phase (b_wavelength b) 0 1).
      rewrite PL. unfold x. cbn [crystallography x_structure]. unfold structure_batch. cbn [ex_disk String.eqb Ascii.eqb Bool.eqb bind cif_open ex_tables tb_ops cell_of ex_cell ex_block cb_atoms cb_dispersion].
      fold ex_tables. change (Structure [Atom "C" vzero 1 1 NoAdp] (fun _ : string => None) [(mI, vzero)] (tb_formfactor ex_tables) (tb_cellstar ex_tables)) with ex_struct.
      rewrite pC61_formula by (try apply ex_known; discriminate). unfold two_planes. cbn [map].
      destruct (ex_F (V3 (-1) 1 0)) as (F1 & F2). destruct (ex_F (V3 (-1) (-1) 0)) as (F3 & F4). rewrite F1, F2, F3, F4. reflexivity. }
  pose proof (pC13_outcome false x p b ex_motion 0 1 None [0] RP (pC87_one_per_reflection ex_tables ex_disk) H4 I) as O.
  destruct (diffract false x p b ex_motion 0 1 None) as (r & p') eqn:D.
  assert (Ep : p' = with_phases p [setup_planes x cif_phase (b_wavelength b) 0 1]).
  { pose proof (f_equal snd D) as Y. unfold diffract in Y. rewrite H5 in Y. cbn [snd map] in Y. symmetry. exact Y. }
  destruct O as (_ & O). destruct O as (d & ->).
  { rewrite Ep, SP. unfold event_count. cbn [with_phases pc_phases]. unfold mapi. cbn [mapi_from list_sum fold_right]. rewrite Nat.add_0_r.
    unfold phase_events. unfold with_phases. cbn [pc_map pc_U pc_eB pc_phases]. rewrite H4. cbn [map_values]. rewrite where_00. unfold used_planes. cbn [ph_hkl ph_sf List.length two_planes Nat.eqb map combine fst snd filter].
    assert (L : Rltb (/ 10 ^ 6) (6 ^ 2 + 0 ^ 2) = true).
    { apply Rltb_true. assert (/ 10 ^ 6 < / 1) by (apply Rinv_lt_contravar; lra). lra. }
    rewrite L. cbn [map list_sum fold_right]. rewrite Nat.add_0_r. unfold element_events. cbn [pc_U pc_eB]. rewrite H6, H7. cbn [nth_error map fst list_sum fold_right].
    rewrite !mv_I, refl_pos, refl_neg by auto. discriminate. }
  destruct (pC87_same_as_unshared false ex_tables ex_disk [cif_phase] (p, [0%nat]) p b ex_motion 0 1 None V) as (Q & _).
  { rewrite H5. constructor; auto. }
  fold x in Q. rewrite D in Q. cbn [fst] in Q.
  destruct (shared_diffract false ex_tables ex_disk [cif_phase] (p, [0%nat]) b ex_motion 0 1 None) as (r & h') eqn:S. cbn [fst] in Q. subst r.
  assert (A : in_phase p 0 0) by (unfold in_phase; now rewrite H4).
  assert (Oph : nth_error (pc_phases p') 0 = Some (setup_planes x cif_phase (b_wavelength b) 0 1)) by (rewrite Ep; reflexivity).
  assert (B : plane_of (setup_planes x cif_phase (b_wavelength b) 0 1) (V3 (-1) 1 0) 36).
  { rewrite SP. exists two_planes, 0%nat. split; [reflexivity|]. split; [reflexivity|]. cbn [ph_sf]. exists 6, 0. split; [reflexivity|]. split; [lra|].
    assert (/ 10 ^ 6 < / 1) by (apply Rinv_lt_contravar; lra). lra. }
  assert (C : scattering_vector p 0 (V3 (-1) 1 0) (V3 (-1) 1 0)).
  { exists mI, mI. rewrite H6, H7. repeat split. now rewrite !mv_I. }
  assert (E : motion_rotate ex_motion (P1 (V3 (-1) 1 0)) (S0 0) = Ok (P1 (V3 (-1) 1 0))).
  { rewrite rotate_P1_S0. do 2 f_equal. apply rot_at_0. }
  assert (F : laue_condition (b_wave_vector b) (V3 (-1) 1 0)).
  { unfold laue_condition. rewrite Hk. unfold norm. f_equal. vunf. lra. }
  assert (G : ~ laue_condition (b_wave_vector b) (right_handed_rotation (V3 0 0 1) PI (V3 (-1) 1 0))).
  { unfold laue_condition. rewrite Hk, <- rod_spec by apply unit_ez. unfold rod_matrix, rod_K2, rod_K. rewrite sin_PI, cos_PI.
    unfold norm. intros E1. apply sqrt_inj in E1; [|apply normsq_nonneg|apply normsq_nonneg]. revert E1. vunf. lra. }
  assert (I0 : nth_error (me_espherecentroids (pc_mesh_lab p)) 0 = Some (V3 7 1 (9/4))) by (rewrite H8, H9; reflexivity).
  assert (J : motion_call ex_motion (P1 (V3 7 1 (9/4))) (S0 0) = Ok (P1 (V3 7 1 (9/4)))).
  { rewrite call_P1_S0. do 2 f_equal. apply move_at_0. }
  assert (K : SBeam.strictly_inside (b_halfspaces b) (V3 7 1 (9/4))) by (apply Hin; cbn [vx vy vz]; rewrite Rabs_right; lra).
  assert (T0 : 0 <= 0 <= 1) by lra.
  destruct (pC12_complete _ _ _ _ _ _ _ _ _ _ _ _ _ _ _ _ _ _ _ _ _ _ _ _ RP ex_motion_ok unit_ez D A Oph B C T0 E F G I0 J K) as (row & Hr & _).
  exists false, (p, [0%nat]), p, b, ex_motion, d, h', row. split; auto. split; [rewrite H5; constructor; auto|]. split; auto. split; auto.
  assert (Rd' : Forall (readable ex_tables ex_disk) (pc_phases p)) by (rewrite H5; constructor; auto).
  destruct (pC87_structure_column _ _ _ _ _ _ _ _ _ _ _ _ _ _ V Rd' S Hr) as (e & i & ph & hkl & sf & _ & Ei & _ & _ & _ & Hsf & _ & Hc).
  rewrite H5 in Ei. assert (ph = cif_phase) as -> by (destruct i as [|[|i]]; cbn in Ei; congruence).
  destruct Hc as (st & u & Cr & Es & _); [discriminate|].
  destruct Cr as (cf & nm & bl & ot & op & a1 & a2 & a3 & a4 & a5 & a6 & mo & C1 & C2 & C3 & C4 & C5 & C6).
  cbn [cif_phase make_phase ph_cif ph_sg ph_cell] in C1, C3, C4. assert (cf = "c.cif"%string) by congruence. subst cf. cbn in C2, C3. unfold ex_cell in C4.
  assert (bl = ex_block) by congruence. assert (op = [(mI, vzero)]) by congruence. subst bl op.
  assert (a1 = 4 /\ a2 = 4 /\ a3 = 4 /\ a4 = 90 /\ a5 = 90 /\ a6 = 90) as (-> & -> & -> & -> & -> & ->) by (repeat split; congruence).
  subst st u. destruct (ex_F hkl) as (F1 & F2). change (Structure (cb_atoms ex_block) (cb_dispersion ex_block) [(mI, vzero)] (tb_formfactor ex_tables) (tb_cellstar ex_tables)) with ex_struct in Es. rewrite F1, F2 in Es. unfold intensity in Es. cbn [fst snd] in Es.
  replace 36 with sf by lra. exact Hsf.
Qed.
