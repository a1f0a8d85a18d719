(** * Proofs: building a renumbered sample (C91). *)
From Verif Require Import Vec Spec MMotion PMotion MLaue PLaue MMesh SMesh PMesh MScattering SScattering PScattering.
From Verif Require Import MStrain SStrain PStrain MBeam SBeam PBeam MPolycrystal SPolycrystal SEvents PPolycrystal PPolycrystal2 PPolycrystal3 PEvents.
From Verif Require Import MDetector SDetector PDetector PDetector2 PDetector3 PDetector4 MClip MRender SRender PRender PRender2 PRender3 SEnd PEnd PEnd2 SJoin PJoin PJoin2 PJoin3 PJoin4 SNumber PNumber PNumber2.
From Coq Require Import Permutation.
Open Scope list_scope. Open Scope R_scope.
Local Notation len := List.length.

Lemma traverse_nth {A B} (f : A -> result B) l o e a : traverse f l = Ok o -> nth_error l e = Some a -> exists y, nth_error o e = Some y /\ f a = Ok y.
Proof.
  intros H. apply traverse_spec in H. revert e. induction H as [|x y l o Hxy H IH]; intros [|e] E; cbn [nth_error] in *; try discriminate; [|apply IH; auto].
  assert (x = a) by congruence. subst. eauto.
Qed.
Lemma traverse_rearranged {A B} (f : A -> result B) s l l' o : new_numbers (len l) s -> rearranged s l l' -> traverse f l = Ok o ->
  exists o', traverse f l' = Ok o' /\ rearranged s o o'.
Proof.
  intros N HR H. destruct (traverse_ok f l') as (o' & H').
  { intros a Ha. apply (rearranged_in s l l' N HR) in Ha. apply In_nth_error in Ha as (e & He). destruct (traverse_nth f l o e a H He) as (y & _ & Hy). eauto. }
  exists o'. split; [exact H'|]. destruct HR as [L HR]. split; [rewrite (traverse_length _ _ _ H), (traverse_length _ _ _ H'); exact L|].
  intros e He. rewrite (traverse_length _ _ _ H) in He. specialize (HR e He). destruct (nth_error l e) as [a|] eqn:E; [|apply nth_error_None in E; lia].
  destruct (traverse_nth _ _ _ _ _ H E) as (y & -> & Hy). destruct (traverse_nth _ _ _ _ _ H' HR) as (y' & -> & Hy'). congruence.
Qed.

(** ** Lattice matrices, element by element *)
Definition lattice_ok (B0 : mat) (c : mat) (B : mat) : Prop := no_negative_eig (metric c) = true /\ eps_to_B1 B0 c = Ok B.
Lemma lab_admits B0 es us Bs : lab_strain_to_B B0 es us = Ok Bs -> Forall (fun eu => no_negative_eig (metric (crystal_strain (snd eu) (fst eu))) = true) (combine es us).
Proof.
  unfold lab_strain_to_B, epsilon_to_b. destruct (Nat.eqb _ _); [|discriminate]. destruct (forallb _ _) eqn:F; [|destruct (Nat.ltb _ 3); discriminate]. intros _.
  rewrite forallb_forall in F. apply Forall_forall. intros eu Hin. apply F. now apply (in_map (fun eu => crystal_strain (snd eu) (fst eu))).
Qed.
Lemma combine_gather {A B} (l : list A) (m : list B) idx a c : gather l idx = Ok a -> gather m idx = Ok c -> forall e, In e idx -> exists x y, nth_error l e = Some x /\ nth_error m e = Some y /\ In (x, y) (combine a c).
Proof.
  intros H1 H2. apply gather_spec in H1, H2. revert c H2. induction H1 as [|k x idx a Hk H1 IH]; intros c H2 e He; [destruct He|]; destruct He as [<-|He].
  - inversion H2 as [|k0 y idx0 c0 Hy H2']. exists x, y. repeat split; auto. now left.
  - inversion H2 as [|k0 y idx0 c0 Hy H2']. subst. destruct (IH _ H2' e He) as (x' & y' & A1 & A2 & A3). exists x', y'. repeat split; auto. now right.
Qed.
Lemma eB_admits x U eps mp : forall phs i eB out e j ph, eB_loop x U eps mp i phs eB = Ok out -> nth_error phs j = Some ph -> nth_error mp e = Some (INR (i + j)) ->
  exists u ep, nth_error U e = Some u /\ nth_error eps e = Some ep /\ no_negative_eig (metric (crystal_strain u ep)) = true.
Proof.
  induction phs as [|ph0 phs IH]; intros i eB out e j ph H Hj He; [destruct j; discriminate|]. cbn [eB_loop] in H.
  destruct (gather eps _) as [es|] eqn:E1; cbn [bind] in H; [|discriminate]. destruct (gather U _) as [us|] eqn:E2; cbn [bind] in H; [|discriminate].
  destruct (lab_strain_to_B _ es us) as [Bs|] eqn:E3; cbn [bind] in H; [|discriminate]. destruct j as [|j]; cbn [nth_error] in Hj.
  - rewrite Nat.add_0_r in He. apply where_eq_in in He. destruct (combine_gather _ _ _ _ _ E1 E2 e He) as (ep & u & A1 & A2 & A3). exists u, ep. split; auto. split; auto.
    apply lab_admits in E3. rewrite Forall_forall in E3. exact (E3 _ A3).
  - eapply IH; eauto. now rewrite Nat.add_succ_comm.
Qed.
Lemma eB_total x U eps mp : len U = len eps -> forall phs i eB,
  (forall e j ph, nth_error phs j = Some ph -> nth_error mp e = Some (INR (i + j)) -> exists u ep B, nth_error U e = Some u /\ nth_error eps e = Some ep /\ lattice_ok (x_form_b x (ph_cell ph)) (crystal_strain u ep) B) ->
  exists out, eB_loop x U eps mp i phs eB = Ok out.
Proof.
  intros L. induction phs as [|ph phs IH]; intros i eB H; cbn [eB_loop]; [eauto|].
  assert (K : forall e, In e (where_eq mp i) -> exists u ep B, nth_error U e = Some u /\ nth_error eps e = Some ep /\ lattice_ok (x_form_b x (ph_cell ph)) (crystal_strain u ep) B).
  { intros e He. apply where_eq_in in He. apply (H e 0%nat ph eq_refl). now rewrite Nat.add_0_r. }
  destruct (gather_total eps (where_eq mp i)) as (es & E1). { intros e He. destruct (K e He) as (_ & ep & _ & _ & Hep & _). eapply nth_error_lt'; eauto. }
  destruct (gather_total U (where_eq mp i)) as (us & E2). { intros e He. destruct (K e He) as (u & _ & _ & Hu & _). eapply nth_error_lt'; eauto. }
  rewrite E1, E2. cbn [bind].
  assert (LL : exists Bs, lab_strain_to_B (x_form_b x (ph_cell ph)) es us = Ok Bs).
  { apply gather_spec in E1, E2. unfold lab_strain_to_B. rewrite <- (Forall2_len _ _ _ E1), <- (Forall2_len _ _ _ E2), Nat.eqb_refl. unfold epsilon_to_b.
    assert (Q : forall c, In c (map (fun eu => crystal_strain (snd eu) (fst eu)) (combine es us)) -> exists B, lattice_ok (x_form_b x (ph_cell ph)) c B).
    { clear - E1 E2 K. revert us E2. induction E1 as [|e ep idx es He E1 IH]; intros us E2 c Hc; [destruct Hc|]. inversion E2 as [|e0 u idx0 us0 Hu E2']. subst. cbn [combine map] in Hc. destruct Hc as [<-|Hc].
      - cbn [fst snd]. destruct (K e (or_introl eq_refl)) as (u' & ep' & B & A1 & A2 & A3). exists B. congruence.
      - apply (IH ltac:(intros; apply K; now right) us0 E2' c Hc). }
    replace (forallb _ _) with true; [apply traverse_ok; intros c Hc; destruct (Q c Hc) as (B & _ & HB); eauto|].
    symmetry. apply forallb_forall. intros c Hc. destruct (Q c Hc) as (B & HB & _). exact HB. }
  destruct LL as (Bs & ->). cbn [bind]. apply IH. intros e j ph' Hj He. apply (H e (S j) ph' Hj). now rewrite <- Nat.add_succ_comm.
Qed.
Lemma eB_number s u x U U' ep ep' mp mp' phs phs' n o : new_numbers n s -> new_numbers (len phs) u -> len U = n -> len ep = n -> rearranged s U U' -> rearranged s ep ep' ->
  rearranged u phs phs' -> same_phases s u n (len phs) mp mp' -> eB_loop x U ep mp 0 phs (repeat mzero n) = Ok o ->
  exists o', eB_loop x U' ep' mp' 0 phs' (repeat mzero n) = Ok o' /\ rearranged s o o'.
Proof.
  intros N1 N2 LU Le RU Re RP (L1 & L2 & SP) H. destruct (numbers_onto _ _ N1) as (g & [G1 _] & G2). destruct (numbers_onto _ _ N2) as (k & [K1 _] & K2).
  assert (LP : len phs' = len phs) by apply RP.
  (* an element of q in terms of p *)
  assert (BACK : forall e' j' ph', nth_error phs' j' = Some ph' -> nth_error mp' e' = Some (INR j') ->
     (e' < n)%nat /\ (j' < len phs)%nat /\ nth_error phs (k j') = Some ph' /\ nth_error mp (g e') = Some (INR (k j'))).
  { intros e' j' ph' Hp Hm. pose proof (nth_error_lt' _ _ _ Hp) as B1. pose proof (nth_error_lt' _ _ _ Hm) as B2. rewrite LP in B1. rewrite L2 in B2. split; auto. split; auto.
    destruct (G2 e' B2) as [_ Ge]. destruct (K2 j' B1) as [_ Kj]. split.
    - destruct RP as [_ RP]. rewrite <- (RP (k j')) by auto. now rewrite Kj.
    - apply SP; auto. now rewrite Ge, Kj. }
  assert (LU' : len U' = n) by (rewrite <- LU; apply RU). assert (Le' : len ep' = n) by (rewrite <- Le; apply Re).
  destruct (eB_total x U' ep' mp' ltac:(congruence) phs' 0 (repeat mzero n)) as (o' & H').
  { intros e' j' ph' Hp Hm. cbn [Nat.add] in Hm. destruct (BACK e' j' ph' Hp Hm) as (B1 & B2 & B3 & B4).
    destruct (eB_admits _ _ _ _ _ _ _ _ _ _ _ H B3 B4) as (uu & epp & A1 & A2 & A3).
    destruct (eB_loop_in _ _ _ _ _ _ _ _ (g e') (k j') ph' uu epp H B3 B4) as (B & _ & A4); rewrite ?repeat_length; auto.
    exists uu, epp, B. destruct (G2 e' B1) as [_ Ge]. destruct RU as [_ RU]. destruct Re as [_ Re].
    rewrite <- Ge. rewrite RU, Re by (rewrite ?LU, ?Le; auto). repeat split; auto. }
  exists o'. split; [exact H'|]. pose proof (eB_loop_length _ _ _ _ _ _ _ _ H) as LO. pose proof (eB_loop_length _ _ _ _ _ _ _ _ H') as LO'. rewrite repeat_length in LO, LO'.
  split; [congruence|]. intros e He. rewrite LO in He. destruct N1 as [N1 N1'].
  destruct (nth_error mp e) as [r|] eqn:Em; [|apply nth_error_None in Em; lia].
  assert (D : (exists j ph, nth_error phs j = Some ph /\ r = INR j) \/ (forall j, (j < len phs)%nat -> r <> INR j)).
  { clear. induction phs as [|ph phs IH] using rev_ind; [right; intros j Hj; cbn in Hj; lia|]. destruct IH as [(j & ph0 & Hj & ->)|IH].
    - left. exists j, ph0. split; auto. rewrite nth_error_app1; auto. eapply nth_error_lt'; eauto.
    - destruct (Req_EM_T r (INR (len phs))) as [->|N].
      + left. exists (len phs), ph. split; auto. rewrite nth_error_app2, Nat.sub_diag by lia. reflexivity.
      + right. intros j Hj. rewrite app_length in Hj. cbn [List.length] in Hj. destruct (Nat.eq_dec j (len phs)) as [->|]; auto. apply IH. lia. }
  destruct D as [(j & ph & Hj & ->)|D].
  - pose proof (nth_error_lt' _ _ _ Hj) as Hjl. destruct (eB_admits _ _ _ _ _ _ _ _ _ _ _ H Hj Em) as (uu & epp & A1 & A2 & _).
    destruct (eB_loop_in _ _ _ _ _ _ _ _ e j ph uu epp H Hj Em) as (B & HB & A4); rewrite ?repeat_length; auto.
    assert (Hj' : nth_error phs' (u j) = Some ph) by (destruct RP as [_ RP]; rewrite RP; auto).
    assert (Em' : nth_error mp' (s e) = Some (INR (u j))) by (apply SP; auto).
    assert (A1' : nth_error U' (s e) = Some uu) by (destruct RU as [_ RU]; rewrite RU by (rewrite LU; auto); auto).
    assert (A2' : nth_error ep' (s e) = Some epp) by (destruct Re as [_ Re]; rewrite Re by (rewrite Le; auto); auto).
    destruct (eB_loop_in _ _ _ _ _ _ _ _ (s e) (u j) ph uu epp H' Hj' Em') as (B' & HB' & A4'); rewrite ?repeat_length; auto. congruence.
  - rewrite (eB_loop_other _ _ _ _ _ _ _ _ e H), (eB_loop_other _ _ _ _ _ _ _ _ (s e) H').
    + rewrite (nth_error_nth' (repeat mzero n) mzero), (nth_error_nth' (repeat mzero n) mzero) by (rewrite repeat_length; auto). now rewrite !nth_repeat.
    + intros j Hj C. cbn [Nat.add] in Hj. rewrite LP in Hj. destruct (K2 j ltac:(lia)) as [_ Kj]. rewrite <- Kj in C. apply SP in C; [|auto|apply K1; lia]. rewrite Em in C. apply (D (k j)); [apply K1; lia|congruence].
    + intros j Hj C. rewrite Em in C. apply (D j); [lia|congruence].
Qed.

Lemma rename_tet v c c' e : new_numbers (len c) v -> rearranged v c c' -> forall t, gather_tet c e = Ok t -> gather_tet c' (rename_nodes v e) = Ok t.
Proof.
  intros N [L R] t. destruct e as [[[i j] k] l]. unfold rename_nodes, gather_tet. destruct (nth_error c i) eqn:E1; [|discriminate]. destruct (nth_error c j) eqn:E2; [|discriminate].
  destruct (nth_error c k) eqn:E3; [|discriminate]. destruct (nth_error c l) eqn:E4; [|discriminate].
  rewrite !R by (eapply nth_error_lt'; eauto). now rewrite E1, E2, E3, E4.
Qed.
(** C91. A renumbered sample is what the constructors make of renumbered arguments: vertices in another order (and the elements
    referring to their new numbers), elements in another order, with their orientations, strains and phase numbers, and phases
    in another order; and the renumbered arguments are accepted when the original ones are. *)
Lemma pC91_built_renumbered : forall x v s u c c' en en' me o o' st st' phs phs' mp mp' p,
  new_numbers (List.length c) v -> new_numbers (List.length en) s -> new_numbers (List.length phs) u ->
  rearranged v c c' -> rearranged s (map (rename_nodes v) en) en' -> rearranged s o o' -> rearranged s st st' ->
  rearranged u phs phs' -> same_phases s u (List.length en) (List.length phs) mp mp' ->
  build_mesh c en = Ok me -> make_polycrystal x me (Stack o) (Stack st) phs (Some mp) = Ok p ->
  exists me' q, build_mesh c' en' = Ok me' /\ make_polycrystal x me' (Stack o') (Stack st') phs' (Some mp') = Ok q /\ renumbered s u p q.
Proof.
  intros x v s u c c' en en' me o o' st st' phs phs' mp mp' p Nv Ns Nu Rc Re Ro Rs Rp SP B M.
  destruct (build_mesh_inv _ _ _ B) as (ts & ss & ET & ES & E).
  assert (ET0 : traverse (gather_tet c') (map (rename_nodes v) en) = Ok ts).
  { clear - ET Nv Rc. revert ts ET. induction en as [|e en IH]; intros ts ET; [exact ET|]. cbn [map traverse] in *. destruct (gather_tet c e) as [t|] eqn:Et; cbn [bind] in ET; [|discriminate].
    rewrite (rename_tet v c c' e Nv Rc t Et). cbn [bind]. destruct (traverse (gather_tet c) en) as [ts0|]; cbn [bind] in ET; [|discriminate]. rewrite (IH ts0 eq_refl). exact ET. }
  assert (Ns' : new_numbers (len (map (rename_nodes v) en)) s) by now rewrite map_length.
  destruct (traverse_rearranged _ s _ _ _ Ns' Re ET0) as (ts' & ET' & Rt). pose proof (traverse_length _ _ _ ET) as Lt.
  assert (Nts : new_numbers (len ts) s) by now rewrite Lt.
  destruct (traverse_rearranged _ s _ _ _ Nts Rt ES) as (ss' & ES' & Rss). pose proof (traverse_length _ _ _ ES) as Lss.
  pose proof (make_mesh _ _ _ _ ET' ES') as B'. eexists. unfold make_polycrystal in *. subst me. cbn [me_coord me_enod] in *. rewrite ET in M. cbn [bind instantiate_mats] in *.
  destruct (Nat.eqb_spec (len o) (len en)) as [X1|]; [|discriminate]. destruct (Nat.eqb_spec (len st) (len en)) as [Y1|]; [|discriminate]. cbn [bind instantiate_phase] in *.
  unfold instantiate_eB in *. cbn [map_values] in *. destruct (eB_loop x o _ _ _ _ _) as [b1|] eqn:Z1; [|discriminate]. cbn [bind] in M. apply ok_inj in M.
  destruct (eB_number s u x o o' st st' mp mp' phs phs' (len en) b1 Ns Nu X1 Y1 Ro Rs Rp SP Z1) as (b2 & Z2 & Rb).
  assert (Len : len en' = len en) by (destruct Re as [Re _]; now rewrite Re, map_length).
  assert (Lo' : len o' = len en) by (destruct Ro as [Ro _]; congruence). assert (Ls' : len st' = len en) by (destruct Rs as [Rs _]; congruence).
  eexists. split; [exact B'|]. cbn [me_coord me_enod]. rewrite ET'. cbn [bind]. rewrite Len, Lo', Ls', Nat.eqb_refl. cbn [bind]. rewrite Z2. cbn [bind]. split; [reflexivity|].
  subst p. unfold renumbered. cbn [pc_U pc_eB pc_volumes pc_mesh_lab me_espherecentroids me_coord me_centroid pc_map pc_phases]. rewrite map_length, Lt.
  split; [exact Ns|]. split; [exact Nu|]. split; [now apply rearranged_map|]. split; [exact Ro|]. split; [exact Rb|]. split; [now apply rearranged_map|]. split; [exact Rp|].
  split; [now apply (rearranged_perm v)|]. split.
  - apply mean_perm. symmetry. apply (rearranged_perm s); [now rewrite map_length|]. now apply rearranged_map.
  - exists mp, mp'. auto.
Qed.
