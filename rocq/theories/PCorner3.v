(** * One rectangle with its corners listed in another order (C105): 'macro' pictures. *)
From Verif Require Import Vec Spec MMotion MLaue MMesh MScattering MStrain MBeam SBeam MPolycrystal SPolycrystal MDetector MClip MRender SRender SWindow.
From Verif Require Import PMotion PLaue PMesh PBeam PStrain PPolycrystal PPolycrystal2 PDetector PDetector2 PDetector3 PDetector4 PRender PRender2 PRender3 PKernel3 PEvents PEnd2 PJoin2 PStructure2 PFrame PFrame2 PFrame3 PFrame4 PLinear PWindow PWindow2 PWindow3 PCorner PCorner2.
From Verif Require Import SCorner SDetector.
From Coq Require Import Permutation.
Open Scope list_scope. Open Scope R_scope.
Local Notation len := List.length.

(** Results that agree: related values, or the same exception. *)
Definition agree {A B} (P : A -> B -> Prop) (r : result A) (q : result B) : Prop :=
  match r, q with Ok a, Ok b => P a b | Err e, Err e' => e' = e | _, _ => False end.
Lemma agree_bind {A B C D} (P : A -> B -> Prop) (Q : C -> D -> Prop) r q f g : agree P r q -> (forall a b, P a b -> agree Q (f a) (g b)) -> agree Q (bind r f) (bind q g).
Proof. destruct r, q; cbn; auto; contradiction. Qed.
Lemma agree_traverse {A B C D} (R0 : A -> B -> Prop) (P : C -> D -> Prop) (f : A -> result C) (g : B -> result D) l m :
  Forall2 (fun a b => agree P (f a) (g b)) l m -> agree (Forall2 P) (traverse f l) (traverse g m).
Proof.
  induction 1 as [|x y l m H F IH]; cbn [traverse]; [constructor|]. eapply agree_bind; [exact H|]. intros c d Hcd. eapply agree_bind; [exact IH|].
  intros cs ds Hs. now constructor.
Qed.
Lemma traverse_perm {A B} (f : A -> result B) e0 l m : (forall x e, f x = Err e -> e = e0) -> Permutation l m -> agree (@Permutation B) (traverse f l) (traverse f m).
Proof.
  intros HE P. assert (C : forall l e, traverse f l = Err e -> e = e0).
  { clear l m P. induction l as [|x l IH]; intros e; cbn [traverse]; [discriminate|]. destruct (f x) eqn:E; cbn [bind]; [|intros H; apply (HE x); congruence].
    destruct (traverse f l); cbn [bind]; [discriminate|]. intros H. apply IH. congruence. }
  induction P as [|x l m P IH|x y l|l m k P IH P2 IH2]; cbn [traverse].
  - constructor.
  - destruct (f x); cbn [bind agree]; auto. eapply agree_bind; [exact IH|]. intros ? ? HH. cbn [agree]. now constructor.
  - destruct (f x) eqn:Ex, (f y) eqn:Ey; cbn [bind agree]; destruct (traverse f l) eqn:El; cbn [bind agree]; auto; try (apply HE in Ex); try (apply HE in Ey); try (apply C in El); try congruence. apply perm_swap.
  - destruct (traverse f l), (traverse f m), (traverse f k); cbn [agree] in *; auto; try contradiction; [eapply Permutation_trans; eassumption|congruence].
Qed.
Definition flip {A B} (ab : A * B) : B * A := (snd ab, fst ab).
Lemma prod_cons {A B} (b : list B) : forall (a : A) (la : list A), Permutation (list_prod b (a :: la)) (map (fun x => (x, a)) b ++ list_prod b la).
Proof.
  induction b as [|y b IH]; intros a la; [constructor|]. cbn [list_prod map app]. apply perm_skip. rewrite IH. rewrite !app_assoc. apply Permutation_app_tail. apply Permutation_app_comm.
Qed.
Lemma prod_flip {A B} (la : list A) (lb : list B) : Permutation (list_prod lb la) (map flip (list_prod la lb)).
Proof.
  induction la as [|a la IH]; cbn [list_prod map].
  - induction lb; [constructor|exact IHlb].
  - rewrite prod_cons, map_app, map_map. apply Permutation_app; [reflexivity|exact IH].
Qed.

(** ** Deposits *)
Definition dep_flip (dp : deposit) : deposit := let '(f, i, j, v) := dp in (f, j, i, v).
Definition placed_flip (dp : nat * nat * nat * num) := let '(f, i, j, v) := dp in (f, j, i, v).
Lemma place_flip n h w dp : place n w h (dep_flip dp) = rmap placed_flip (place n h w dp).
Proof. destruct dp as [[[f i] j] v]. cbn [dep_flip place]. destruct (wrap n f), (wrap h i), (wrap w j); reflexivity. Qed.
Lemma place_err n h w dp e : place n h w dp = Err e -> e = IndexError.
Proof. destruct dp as [[[f i] j] v]. cbn [place]. destruct (wrap n f), (wrap h i), (wrap w j); congruence. Qed.
Definition turned3 (im im2 : frames3) : Prop := f_n im2 = f_n im /\ f_h im2 = f_w im /\ f_w im2 = f_h im /\ forall f i j, f_at im2 f j i = f_at im f i j.
Lemma index_put_flip n h w ds ds2 : Permutation ds2 (map dep_flip ds) -> agree turned3 (index_put (zeros3 n h w) ds) (index_put (zeros3 n w h) ds2).
Proof.
  intros P. unfold index_put. cbn [zeros3 f_n f_h f_w]. pose proof (traverse_perm (place n w h) IndexError _ _ (fun x e => place_err n w h x e) P) as T.
  rewrite PFrame.traverse_map, (traverse_rmap (place n h w) _ placed_flip ds (place_flip n h w)) in T.
  destruct (traverse (place n w h) ds2) as [p2|e2]; destruct (traverse (place n h w) ds) as [p1|e1]; cbn [rmap agree bind] in *; auto.
  repeat apply conj; [reflexivity|reflexivity|reflexivity|]. intros f i j. cbn [f_at]. f_equal.
  assert (Q : Permutation (map snd (filter (at_pixel f j i) p2)) (map snd (filter (at_pixel f j i) (map placed_flip p1)))).
  { apply Permutation_map. clear - T. induction T; cbn [filter]; repeat match goal with |- context [if ?b then _ else _] => destruct b end; auto; try apply perm_swap. now transitivity (filter (at_pixel f j i) l'). }
  rewrite (nsum_perm _ _ Q). f_equal. clear. induction p1 as [|[[[f' i'] j'] v] l IH]; [reflexivity|]. cbn [map placed_flip filter at_pixel].
  rewrite <- !andb_assoc, (andb_comm (Nat.eqb j j')). destruct (Nat.eqb f f' && (Nat.eqb i i' && Nat.eqb j j'))%bool; cbn [map snd]; now rewrite IH.
Qed.

(** ** Blur *)
Lemma psf_symmetric d psf : psf_kernel d = Ok psf -> forall a b, k_at psf b a = k_at psf a b.
Proof. unfold psf_kernel. cbv zeta. destruct (psf_radius d <? 0)%Z; [discriminate|]. intros H. apply ok_inj in H. subst psf. intros a b. unfold knorm. cbn [k_at k_n]. now rewrite (Rplus_comm ((INR b - _)^2)). Qed.
Lemma psf_settings d d2 : same_settings d d2 -> psf_kernel d2 = psf_kernel d.
Proof. intros (S & T & M & _). unfold psf_kernel, psf_radius. now rewrite S, T, M. Qed.
Lemma conv3_flip k im im2 : (forall a b, k_at k b a = k_at k a b) -> turned3 im im2 -> turned3 (conv3 k im) (conv3 k im2).
Proof.
  intros HS (E1 & E2 & E3 & E4). unfold conv3, turned3. cbn [f_n f_h f_w f_at]. repeat apply conj; auto. intros f i j. rewrite E2, E3. unfold conv2. cbv zeta.
  unfold grid. rewrite (nsum_perm _ _ (Permutation_map _ (prod_flip (seq 0 (k_n k)) (seq 0 (k_n k))))), map_map. f_equal. apply map_ext. intros [a b]. unfold flip. cbn [fst snd]. rewrite HS. f_equal.
  unfold padded. set (I := (Z.of_nat i + _ - _)%Z). set (J := (Z.of_nat j + _ - _)%Z). rewrite E4.
  replace ((0 <=? J) && (J <? Z.of_nat (f_w im)) && (0 <=? I) && (I <? Z.of_nat (f_h im)))%Z%bool with ((0 <=? I) && (I <? Z.of_nat (f_h im)) && (0 <=? J) && (J <? Z.of_nat (f_w im)))%Z%bool; [reflexivity|].
  rewrite <- !andb_assoc. destruct (0 <=? I)%Z, (0 <=? J)%Z, (I <? Z.of_nat (f_h im))%Z, (J <? Z.of_nat (f_w im))%Z; reflexivity.
Qed.

(** ** One grain *)
Section Pair.
Variables (d d2 : detector).
Hypothesis T : transposed d d2.
Lemma tp_parts : built d /\ built d2 /\ d_c0 d2 = d_c0 d /\ d_c1 d2 = d_c2 d /\ d_c2 d2 = d_c1 d /\ d_pz d2 = d_py d /\ d_py d2 = d_pz d /\ d_zmax d2 = d_ymax d /\ d_ymax d2 = d_zmax d.
Proof. pose proof (transposed_maxes d d2 T) as (M1 & M2). destruct T as (B & B2 & _ & _ & E0 & E1 & E2 & P1 & P2 & _). auto 15. Qed.
Lemma tp_hit z v o : dot v (N_of d) <> 0 -> exists zd yd a b, get_intersection z d (nfin v) (nfin o) = (zd, yd, a) /\ get_intersection z d2 (nfin v) (nfin o) = (yd, zd, b).
Proof.
  intros Hv. destruct tp_parts as (B & B2 & E0 & E1 & E2 & _). rewrite (intersection_closed z d v o B Hv). cbv zeta.
  pose proof (fun zd yd a => pC49_corner_order z d d2 v o zd yd a B B2 E0 E1 E2 Hv) as C. rewrite (intersection_closed z d v o B Hv) in C. cbv zeta in C.
  destruct (Rltb (svalue d v o) 0); rewrite (C _ _ _ eq_refl); repeat eexists.
Qed.
Definition box_flip (x : Z * Z * Z * Z) : Z * Z * Z * Z := let '(r0, r1, c0, c1) := x in (c0, c1, r0, r1).
Lemma tp_box z vs k : dot k (N_of d) <> 0 -> projected_box z d2 vs k = option_map box_flip (projected_box z d vs k).
Proof.
  intros Hk. destruct tp_parts as (_ & _ & _ & _ & _ & P1 & P2 & M1 & M2). unfold projected_box. cbv zeta. rewrite !map_map.
  assert (EZ : map (fun v => fst (fst (get_intersection z d2 (nfin k) (nfin v)))) vs = map (fun v => snd (fst (get_intersection z d (nfin k) (nfin v)))) vs).
  { apply map_ext. intros v. destruct (tp_hit z k v Hk) as (zd & yd & a & b & -> & ->). reflexivity. }
  assert (EY : map (fun v => snd (fst (get_intersection z d2 (nfin k) (nfin v)))) vs = map (fun v => fst (fst (get_intersection z d (nfin k) (nfin v)))) vs).
  { apply map_ext. intros v. destruct (tp_hit z k v Hk) as (zd & yd & a & b & -> & ->). reflexivity. }
  rewrite EZ, EY. 
  generalize (range_of (map (fun v => fst (fst (get_intersection z d (nfin k) (nfin v)))) vs)) (range_of (map (fun v => snd (fst (get_intersection z d (nfin k) (nfin v)))) vs)).
  intros [rz|] [ry|]; cbv iota; try reflexivity.
  rewrite M1, M2, P1, P2. destruct (clip_axis ry (d_ymax d)) as [by_|]; destruct (clip_axis rz (d_zmax d)) as [bz|]; try reflexivity.
Qed.
Lemma tp_pixel i j : pixel_coordinate d2 j i = pixel_coordinate d i j.
Proof.
  destruct tp_parts as (B & B2 & E0 & E1 & E2 & P1 & P2 & _). assert (Z : d_zdhat d2 = d_ydhat d /\ d_ydhat d2 = d_zdhat d).
  { destruct B as (c0 & c1 & c2 & np & ps & sg & th & mr & ul & up & us & H). destruct B2 as (c0' & c1' & c2' & np' & ps' & sg' & th' & mr' & ul' & up' & us' & H').
    apply make_detector_inv in H as (F0 & F1 & F2 & _ & _ & -> & -> & _). apply make_detector_inv in H' as (G0 & G1 & G2 & _ & _ & -> & -> & _).
    rewrite <- G0, <- G1, <- G2, <- F0, <- F1, <- F2, E0, E1, E2. auto. }
  destruct Z as (Z1 & Z2). unfold pixel_coordinate. rewrite E0, Z1, Z2, P1, P2.
  generalize (nvscale (Fin (INR j * d_py d)) (d_ydhat d)) (nvscale (Fin (INR i * d_pz d)) (d_zdhat d)) (nfin (d_c0 d)). intros a b c. unfold nvadd. cbn [nx ny nz].
  f_equal; rewrite <- !nadd_assoc; f_equal; apply nadd_comm.
Qed.
Definition flipped_box (p q : box_matrix) : Prop := forall a b, q b a = p a b.
Lemma total_flip (g : nat -> nat -> R) (h : nat -> nat -> R) rows cols : (forall a b, h b a = g a b) ->
  sum_list (map (fun ab => h (fst ab) (snd ab)) (list_prod (seq 0 cols) (seq 0 rows))) = sum_list (map (fun ab => g (fst ab) (snd ab)) (list_prod (seq 0 rows) (seq 0 cols))).
Proof.
  intros H. rewrite (sum_list_permutation _ _ (Permutation_map _ (prod_flip (seq 0 rows) (seq 0 cols)))), map_map. apply sum_list_ext. intros [a b] _. cbn [flip fst snd]. apply H.
Qed.
Lemma tp_detector_driven z hl dir r0 c0 rows cols : flipped_box (project_detector_driven z d hl dir r0 c0 rows cols) (project_detector_driven z d2 hl dir c0 r0 cols rows).
Proof.
  intros a b. unfold project_detector_driven. cbv zeta.
  set (g := fun a b => match pixel_coordinate d (r0 + a) (c0 + b) with NV (Fin x) (Fin y) (Fin w) => clip_length (V3 x y w) dir (hull_planes (h_eqs hl)) | _ => 0 end).
  set (h := fun b a => match pixel_coordinate d2 (c0 + b) (r0 + a) with NV (Fin x) (Fin y) (Fin w) => clip_length (V3 x y w) dir (hull_planes (h_eqs hl)) | _ => 0 end).
  assert (E : forall a b, h b a = g a b) by (intros a' b'; unfold h, g; now rewrite tp_pixel).
  change (nmul (ndiv z (Fin (h b a)) (Fin (sum_list (map (fun ab => h (fst ab) (snd ab)) (list_prod (seq 0 cols) (seq 0 rows)))))) (Fin (h_volume hl)) =
          nmul (ndiv z (Fin (g a b)) (Fin (sum_list (map (fun ab => g (fst ab) (snd ab)) (list_prod (seq 0 rows) (seq 0 cols)))))) (Fin (h_volume hl))).
  now rewrite (total_flip g h rows cols E), E.
Qed.
Lemma sample_index_err r0 n px x e : sample_index r0 n px x = Err e -> e = IndexError.
Proof. unfold sample_index. destruct x; try congruence. destruct (wrap _ _); congruence. Qed.
Lemma tp_cell z dir r0 c0 rows cols p : dot dir (N_of d) <> 0 -> sample_cell z d2 dir c0 r0 cols rows p = rmap flip (sample_cell z d dir r0 c0 rows cols p).
Proof.
  intros H. destruct tp_parts as (_ & _ & _ & _ & _ & P1 & P2 & _). unfold sample_cell. destruct (tp_hit z dir p H) as (zd & yd & a & b & -> & ->). rewrite P1, P2.
  destruct (sample_index r0 rows (d_pz d) zd) as [i|e] eqn:E1; destruct (sample_index c0 cols (d_py d) yd) as [j|e'] eqn:E2; cbn [bind rmap]; auto.
  apply sample_index_err in E1, E2. congruence.
Qed.
Lemma tp_sample_driven z hl dir r0 c0 rows cols samples : dot dir (N_of d) <> 0 ->
  agree flipped_box (project_sample_driven z d hl dir r0 c0 rows cols samples) (project_sample_driven z d2 hl dir c0 r0 cols rows samples).
Proof.
  intros H. unfold project_sample_driven. cbv zeta. rewrite (traverse_rmap (sample_cell z d dir r0 c0 rows cols) _ flip samples (fun p => tp_cell z dir r0 c0 rows cols p H)).
  destruct (traverse _ samples) as [cells|e]; cbn [rmap bind agree]; auto. intros a b.
  set (lens := clip_lengths samples dir (hull_planes (h_eqs hl))).
  set (g := fun a b => sum_list (map snd (filter (fun cl => Nat.eqb (fst (fst cl)) a && Nat.eqb (snd (fst cl)) b) (combine cells lens)))).
  set (h := fun b a => sum_list (map snd (filter (fun cl => Nat.eqb (fst (fst cl)) b && Nat.eqb (snd (fst cl)) a) (combine (map flip cells) lens)))).
  assert (E : forall a b, h b a = g a b).
  { intros a' b'. unfold h, g. f_equal. clear. generalize lens. induction cells as [|[x y] l IH]; intros [|q ls]; [reflexivity|reflexivity|reflexivity|]. cbn [map combine filter flip fst snd].
    rewrite andb_comm. destruct (Nat.eqb x a' && Nat.eqb y b')%bool; cbn [map snd]; now rewrite IH. }
  change (nmul (ndiv z (Fin (h b a)) (Fin (sum_list (map (fun ab => h (fst ab) (snd ab)) (list_prod (seq 0 cols) (seq 0 rows)))))) (Fin (h_volume hl)) =
          nmul (ndiv z (Fin (g a b)) (Fin (sum_list (map (fun ab => g (fst ab) (snd ab)) (list_prod (seq 0 rows) (seq 0 cols)))))) (Fin (h_volume hl))).
  now rewrite (total_flip g h rows cols E), E.
Qed.
Lemma tp_project z hl kout r0 r1 c0 c1 sample : dot kout (N_of d) <> 0 ->
  agree flipped_box (project_hull z d hl kout (r0, r1, c0, c1) sample) (project_hull z d2 hl kout (c0, c1, r0, r1) sample).
Proof.
  intros H. unfold project_hull. cbv zeta. rewrite (Z.mul_comm (c1 - c0)). destruct ((r1 - r0) * (c1 - c0) =? 1)%Z; [cbn; intros a b; reflexivity|].
  destruct ((r1 - r0) * (c1 - c0) <=? 4)%Z; [|cbn; apply tp_detector_driven]. apply tp_sample_driven.
  assert (K : kout <> vzero) by (intros E; apply H; rewrite E; generalize (N_of d); intros; vdes; vunf; ring).
  apply norm_pos in K. intros E. apply H. assert (F : dot kout (N_of d) = norm kout * dot (vdiv kout (norm kout)) (N_of d)) by (generalize K; generalize (norm kout) (N_of d); clear; intros; vdes; unfold vdiv; vunf; field; lra). rewrite F, E. ring.
Qed.
Lemma nmul_assoc' x a b : nmul (nmul x (Fin a)) (Fin b) = nmul (nmul x (Fin b)) (Fin a).
Proof.
  destruct x as [x| | |]; cbn; [f_equal; ring| | |reflexivity];
  destruct (Req_EM_T a 0) as [Ea|Ea], (Req_EM_T b 0) as [Eb|Eb]; cbn; auto; unfold nsign_inf;
  repeat match goal with |- context [if Rltb ?p ?q then _ else _] => destruct (Rltb p q) eqn:? end; cbn;
  repeat match goal with |- context [Req_EM_T ?p ?q] => destruct (Req_EM_T p q) end; try contradiction; auto; unfold nsign_inf;
  repeat match goal with |- context [if Rltb ?p ?q then _ else _] => destruct (Rltb p q) eqn:? end; cbn; auto; try congruence;
  exfalso; unfold Rltb in *; repeat match goal with H : (if Rlt_dec ?p ?q then _ else _) = _ |- _ => destruct (Rlt_dec p q); try discriminate end; destruct (Rtotal_order a 0) as [?|[?|?]], (Rtotal_order b 0) as [?|[?|?]]; lra.
Qed.
Lemma tp_deposits e b me m k r1 r2 : (forall j, (j < 25)%nat -> ncol r2 j = ncol r1 j) -> ncol r2 28 = ncol r1 28 -> ncol r2 29 = ncol r1 29 -> dot (fvec r1 13) (N_of d) <> 0 ->
  agree (fun l l2 => Permutation l2 (map dep_flip l)) (macro_deposits e d b me m k r1) (macro_deposits e d2 b me m k r2).
Proof.
  intros C C28 C29 H. destruct tp_parts as (_ & _ & _ & _ & _ & P1 & P2 & _). unfold macro_deposits.
  assert (F0 : fcol r2 0 = fcol r1 0) by (unfold fcol; now rewrite C by lia). assert (F6 : fcol r2 6 = fcol r1 6) by (unfold fcol; now rewrite C by lia).
  assert (F28 : fcol r2 28 = fcol r1 28) by (unfold fcol; now rewrite C28).
  assert (FV : fvec r2 13 = fvec r1 13) by (unfold fvec, fcol; now rewrite !C by lia). rewrite F0, F6, F28, FV, C29.
  destruct (nth_error (me_enod me) _) as [el|]; [|reflexivity]. destruct (gather_tet _ _) as [t|]; [|reflexivity]. cbn [bind].
  destruct (beam_intersect _ _ _ _ _) as [it|]; [|reflexivity]. cbn [bind].
  assert (M : agree (fun l l2 => Permutation l2 (map dep_flip l))
    (let* hl := re_hull e (map (move_at m (fcol r1 6)) (tet_list t)) it in
     match projected_box (re_z e) d (h_corners hl) (fvec r1 13) with None => Ok [] | Some (r0, r1_, c0, c1) =>
       let* pr := project_hull (re_z e) d hl (fvec r1 13) (r0, r1_, c0, c1) (re_sample e k) in
       match ncol r1 29 with Fin i => Ok (map (fun ab => (ztrunc (fcol r1 28), (r0 + Z.of_nat (fst ab))%Z, (c0 + Z.of_nat (snd ab))%Z, nmul (Fin i) (nmul (nmul (pr (fst ab) (snd ab)) (Fin (d_pz d))) (Fin (d_py d))))) (list_prod (seq 0 (Z.to_nat (r1_ - r0))) (seq 0 (Z.to_nat (c1 - c0))))) | _ => Ok [] end end)
    (let* hl := re_hull e (map (move_at m (fcol r1 6)) (tet_list t)) it in
     match projected_box (re_z e) d2 (h_corners hl) (fvec r1 13) with None => Ok [] | Some (r0, r1_, c0, c1) =>
       let* pr := project_hull (re_z e) d2 hl (fvec r1 13) (r0, r1_, c0, c1) (re_sample e k) in
       match ncol r1 29 with Fin i => Ok (map (fun ab => (ztrunc (fcol r1 28), (r0 + Z.of_nat (fst ab))%Z, (c0 + Z.of_nat (snd ab))%Z, nmul (Fin i) (nmul (nmul (pr (fst ab) (snd ab)) (Fin (d_pz d2))) (Fin (d_py d2))))) (list_prod (seq 0 (Z.to_nat (r1_ - r0))) (seq 0 (Z.to_nat (c1 - c0))))) | _ => Ok [] end end)).
  { destruct (re_hull e _ it) as [hl|ex]; cbn [bind]; [|reflexivity]. rewrite tp_box by auto. destruct (projected_box (re_z e) d (h_corners hl) (fvec r1 13)) as [[[[r0 r1'] c0] c1]|]; cbn [option_map box_flip]; [|constructor].
    eapply agree_bind; [now apply tp_project|]. intros p q F. destruct (ncol r1 29) as [i| | |]; cbn [agree]; try constructor.
    rewrite (Permutation_map _ (prod_flip (seq 0 (Z.to_nat (r1' - r0))) (seq 0 (Z.to_nat (c1 - c0))))), !map_map. apply Permutation_refl'. apply map_ext. intros [x y]. cbn [flip dep_flip fst snd].
    rewrite F, P1, P2. now rewrite nmul_assoc'. }
  destruct it; first [exact M | cbn [agree]; constructor].
Qed.
End Pair.

(** ** The picture *)
Lemma agree_mono {A B} (P Q : A -> B -> Prop) r q : (forall a b, P a b -> Q a b) -> agree P r q -> agree Q r q.
Proof. intros H. destruct r, q; cbn; auto. Qed.
Lemma concat_flip ls ls2 : Forall2 (fun l l2 => Permutation l2 (map dep_flip l)) ls ls2 -> Permutation (List.concat ls2) (map dep_flip (List.concat ls)).
Proof. induction 1; cbn [List.concat]; [constructor|]. rewrite map_app. now apply Permutation_app. Qed.
Definition row_pair (d : detector) (r1 r2 : list num) : Prop :=
  (forall j, (j < 25)%nat -> ncol r2 j = ncol r1 j) /\ ncol r2 28 = ncol r1 28 /\ ncol r2 29 = ncol r1 29 /\ dot (fvec r1 13) (N_of d) <> 0.
Lemma macro_flip e d d2 b me m rows rows2 n : transposed d d2 -> Forall2 (row_pair d) rows rows2 -> agree transposed_image (render_macro e d b me m rows n) (render_macro e d2 b me m rows2 n).
Proof.
  intros T F. destruct (transposed_pixels d d2 T) as (Q1 & Q2). pose proof (tp_deposits d d2 T e b me m) as TD.
  assert (ST : same_settings d d2) by (destruct T as (_ & _ & _ & _ & _ & _ & _ & _ & _ & S); exact S).
  assert (HD : forall i, agree (Forall2 (fun l l2 => Permutation l2 (map dep_flip l)))
     (traverse (fun kr => macro_deposits e d b me m (fst kr) (snd kr)) (combine (seq i (len rows)) rows))
     (traverse (fun kr => macro_deposits e d2 b me m (fst kr) (snd kr)) (combine (seq i (len rows2)) rows2))).
  { intros i. eapply (agree_traverse (fun _ _ => True)). revert i. clear - F TD. induction F as [|r r2 l l2 (H1 & H2 & H3 & H4) F IH]; intros i; cbn [len seq combine]; [constructor|]. constructor; [|apply IH]. cbn [fst snd]. now apply TD. }
  assert (HW : traverse (fun r => match wrap n (ztrunc (fcol r 28)) with Some _ => Ok tt | None => Err IndexError end) rows2 =
               traverse (fun r => match wrap n (ztrunc (fcol r 28)) with Some _ => Ok tt | None => Err IndexError end) rows).
  { clear - F. induction F as [|r r2 l l2 (H1 & H2 & H3 & H4) F IH]; cbn [traverse]; [reflexivity|]. unfold fcol at 1. rewrite H2. fold (fcol r 28). destruct (wrap n _); cbn [bind]; [now rewrite IH|reflexivity]. }
  assert (HU : forall f, existsb (fun r => match wrap n (ztrunc (fcol r 28)) with Some g => Nat.eqb f g | None => false end) rows2 =
                         existsb (fun r => match wrap n (ztrunc (fcol r 28)) with Some g => Nat.eqb f g | None => false end) rows).
  { intros f. clear - F. induction F as [|r r2 l l2 (H1 & H2 & H3 & H4) F IH]; cbn [existsb]; [reflexivity|]. unfold fcol at 1. rewrite H2. fold (fcol r 28). now rewrite IH. }
  unfold render_macro. destruct F as [|r r2 l l2 Hr F].
  - cbn [agree]. unfold transposed_image. cbn [zeros3 f_n f_h f_w f_at]. auto.
  - rewrite (psf_settings d d2 ST). destruct (psf_kernel d) as [psf|ex] eqn:EP; cbn [bind]; [|reflexivity].
    eapply agree_bind; [apply (HD 0%nat)|]. intros ds ds2 Hds. rewrite HW.
    destruct (traverse (fun r => match wrap n (ztrunc (fcol r 28)) with Some _ => Ok tt | None => Err IndexError end) (r :: l)) as [us|ex]; cbn [bind]; [|reflexivity]. rewrite Q1, Q2.
    eapply agree_bind; [apply index_put_flip, concat_flip; exact Hds|]. intros im im2 HI. cbv zeta. pose proof (conv3_flip psf im im2 (psf_symmetric d psf EP) HI) as (_ & _ & _ & C4).
    cbn [agree]. unfold transposed_image. cbn [f_n f_h f_w f_at]. split; [reflexivity|]. split; [reflexivity|]. split; [reflexivity|]. intros f i j _. rewrite HU. destruct (existsb _ _); [apply C4|reflexivity].
Qed.
Lemma kept_dir z d fr r : built d -> good_row r -> keepb z d fr r = true -> dot (fvec (extend z d fr r) 13) (N_of d) <> 0.
Proof.
  intros B (L & (v & Ev) & (o & Eo)) K. assert (EV : fvec (extend z d fr r) 13 = v).
  { rewrite extend_eq by lia. destruct (get_intersection z d (row_nvec r 13) (row_nvec r 16)) as [[zd yd] a]. unfold fvec, fcol. rewrite !ncol_app_l by lia. unfold row_nvec, nfin in Ev.
    assert (E1 : ncol r 13 = Fin (vx v)) by congruence. assert (E2 : ncol r (13 + 1) = Fin (vy v)) by congruence. assert (E3 : ncol r (13 + 2) = Fin (vz v)) by congruence. rewrite E1, E2, E3. now destruct v. }
  rewrite EV. intros H. pose proof (parallel_no_hit z d v o B H) as F. cbv zeta in F. rewrite <- Ev, <- Eo in F.
  destruct (get_intersection z d (row_nvec r 13) (row_nvec r 16)) as [[zd yd] a] eqn:E. cbn [fst snd] in F. rewrite (keepb_fresh z d fr r zd yd a L E), F in K. discriminate.
Qed.
Lemma pair_rows z d d2 fr A : transposed d d2 -> Forall good_row A ->
  Forall2 (row_pair d) (map (extend z d fr) (filter (keepb z d fr) A)) (map (extend z d2 fr) (filter (keepb z d2 fr) A)).
Proof.
  intros T H. pose proof (transposed_rays d d2 T) as RV. destruct T as (B & _). induction H as [|r A Hr H IH]; [constructor|]. cbn [filter]. destruct (via_row exchanged d d2 z fr r RV Hr) as (E & P). rewrite E.
  destruct (keepb z d fr r) eqn:K; cbn [map]; [|exact IH]. constructor; [|exact IH]. pose proof (kept_dir z d fr r B Hr K) as HK. destruct (P eq_refl) as (x & y & w & f & i & E1 & E2). destruct Hr as (L & _).
  split; [|split; [|split; [|exact HK]]]; rewrite E1, E2; [intros j Hj; now rewrite !ncol_app_l by lia| |]; rewrite !ncol_app_r by lia; now rewrite L.
Qed.
Lemma macro_agree d d2 e z x p b m lo hi det pd frames ml mi : transposed d d2 -> fst (diffract z x p b m lo hi det) = Ok pd ->
  agree (fun a c => transposed_image (fst a) (fst c)) (render e d pd frames "macro" ml mi) (render e d2 pd frames "macro" ml mi).
Proof.
  intros T D. pose proof (diffract_good _ _ _ _ _ _ _ _ _ D) as A. assert (Hf : fresh pd) by (eapply pC32_diffract_tables_fresh; exact D).
  assert (HO : forall dd, exists o, project (re_z e) dd pd (nframes frames) = Ok o).
  { intros dd. apply project_ok. destruct Hf as (_ & Hl). eapply Forall_impl; [|exact Hl]. cbn. intros; lia. }
  destruct (HO d) as (o1 & O1). destruct (HO d2) as (o2 & O2). unfold render. cbv zeta. fold (nframes frames). rewrite O1, O2. cbn [bind]. cbn [String.eqb Ascii.eqb Bool.eqb].
  apply project_inv in O1 as (P1 & _ & _ & _ & _ & B1 & B2 & B3). apply project_inv in O2 as (P2 & _ & _ & _ & _ & B4 & B5 & B6). unfold macro_method. rewrite B1, B2, B3, B4, B5, B6, P1, P2.
  eapply agree_bind; [apply (macro_flip e d d2); [exact T|now apply pair_rows]|]. intros im im2 HI. cbn [agree fst]. exact HI.
Qed.
(** C105. The 'macro' picture on the transposed detector is the transposed picture, exactly: pixel by pixel, blur included, for the
    same hulls and sample points. *)
Lemma pC105_transposed_macro : forall d d2 e z x p b m lo hi det pd frames ml mi im out, transposed d d2 ->
  fst (diffract z x p b m lo hi det) = Ok pd -> render e d pd frames "macro" ml mi = Ok (im, out) ->
  exists im2 out2, render e d2 pd frames "macro" ml mi = Ok (im2, out2) /\ transposed_image im im2.
Proof.
  intros d d2 e z x p b m lo hi det pd frames ml mi im out T D H. pose proof (macro_agree d d2 e z x p b m lo hi det pd frames ml mi T D) as A. rewrite H in A.
  destruct (render e d2 pd frames "macro" ml mi) as [[im2 out2]|ex]; cbn [agree] in A; [|contradiction]. exists im2, out2. split; [reflexivity|exact A].
Qed.
(** C105. And it fails when the other one fails, with the same exception. *)
Lemma pC105_macro_same_failures : forall d d2 e z x p b m lo hi det pd frames ml mi ex, transposed d d2 ->
  fst (diffract z x p b m lo hi det) = Ok pd -> render e d pd frames "macro" ml mi = Err ex -> render e d2 pd frames "macro" ml mi = Err ex.
Proof.
  intros d d2 e z x p b m lo hi det pd frames ml mi ex T D H. pose proof (macro_agree d d2 e z x p b m lo hi det pd frames ml mi T D) as A. rewrite H in A.
  destruct (render e d2 pd frames "macro" ml mi) as [im2|ex']; cbn [agree] in A; [contradiction|now subst].
Qed.
