(** * Properties of the powder template (C56). *)
From Verif Require Import Vec Spec MMotion MLaue MMesh SMesh MScattering MStrain MBeam MPolycrystal MDetector MTemplates STemplates.
From Verif Require Import PLaue PMesh PBeam PDetector PStrain PPolycrystal PPolycrystal3.
From Coq Require Import String Permutation.
Open Scope R_scope.
Local Notation len := List.length.

Lemma quad (a b c d a' b' c' d' : nat) : a = a' -> b = b' -> c = c' -> d = d' -> Some (a, b, c, d) = Some (a', b', c', d').
Proof. congruence. Qed.
Lemma powder_enod r : forall n base k, (k < n)%nat -> nth_error (snd (powder_loop r n base)) k = Some (base + 3 * k, base + 3 * k + 1, base + 3 * k + 2, base + 3 * k + 3)%nat.
Proof.
  induction n as [|n IH]; intros base k Hk; [lia|]. cbn [powder_loop]. destruct (powder_loop r n (base + 3)) as [coord enod] eqn:E. cbn [snd]. destruct k as [|k].
  - cbn [nth_error]. apply quad; lia.
  - cbn [nth_error]. specialize (IH (base + 3)%nat k ltac:(lia)). rewrite E in IH. cbn [snd] in IH. rewrite IH. apply quad; lia.
Qed.
Lemma powder_enod_length r : forall n base, len (snd (powder_loop r n base)) = n.
Proof. induction n as [|n IH]; intros base; auto. cbn [powder_loop]. specialize (IH (base + 3)%nat). destruct (powder_loop r n (base + 3)) as [coord enod]. cbn in *. auto. Qed.
Lemma powder_coord_length r : forall n base, len (fst (powder_loop r n base)) = (4 * n)%nat.
Proof. induction n as [|n IH]; intros base; auto. cbn [powder_loop]. specialize (IH (base + 3)%nat). destruct (powder_loop r n (base + 3)) as [coord enod]. cbn [fst] in *. rewrite app_length, IH. cbn. lia. Qed.
Lemma powder_coord r : forall n base k, (k < 4 * n)%nat -> nth_error (fst (powder_loop r n base)) k = nth_error (powder_corners r) (k mod 4).
Proof.
  induction n as [|n IH]; intros base k Hk; [lia|]. cbn [powder_loop]. specialize (IH (base + 3)%nat). destruct (powder_loop r n (base + 3)) as [coord enod]. cbn [fst] in *.
  destruct (Nat.lt_ge_cases k 4) as [L|L].
  - rewrite nth_error_app1 by (cbn; lia). rewrite Nat.mod_small by lia. reflexivity.
  - rewrite nth_error_app2 by (cbn; lia). cbn [powder_corners List.length]. rewrite IH by lia. f_equal. replace k with (k - 4 + 1 * 4)%nat at 2 by lia. now rewrite Nat.mod_add by lia.
Qed.
Definition P0 (r : R) := V3 (r / sqrt 3) (r / sqrt 3) (- r / sqrt 3).
Definition P1 (r : R) := V3 (r / sqrt 3) (- r / sqrt 3) (- r / sqrt 3).
Definition P2 (r : R) := V3 (- r / sqrt 2) 0 (- r / sqrt 2).
Definition P3 (r : R) := V3 0 0 r.
(** Element k is the fixed tetrahedron with its corners rotated k times. *)
Definition powder_tet (r : R) (k : nat) : tet :=
  match (k mod 4)%nat with
  | 0%nat => Tet (P0 r) (P1 r) (P2 r) (P3 r)
  | 1%nat => Tet (P3 r) (P0 r) (P1 r) (P2 r)
  | 2%nat => Tet (P2 r) (P3 r) (P0 r) (P1 r)
  | _ => Tet (P1 r) (P2 r) (P3 r) (P0 r)
  end.
Lemma powder_gather r n k : (k < n)%nat -> gather_tet (fst (powder_loop r n 0)) (3 * k, 3 * k + 1, 3 * k + 2, 3 * k + 3)%nat = Ok (powder_tet r k).
Proof.
  intros Hk. unfold gather_tet. rewrite !powder_coord by lia. unfold powder_tet.
  pose proof (Nat.div_mod k 4 ltac:(lia)) as E. pose proof (Nat.mod_upper_bound k 4 ltac:(lia)) as B. set (a := (k / 4)%nat) in *. set (b := (k mod 4)%nat) in *. clearbody a b. subst k.
  assert (M : forall j, ((3 * (4 * a + b) + j) mod 4 = (3 * b + j) mod 4)%nat).
  { intros j. replace (3 * (4 * a + b) + j)%nat with (3 * b + j + (3 * a) * 4)%nat by lia. now rewrite Nat.mod_add by lia. }
  rewrite <- (Nat.add_0_r (3 * (4 * a + b))) at 1. rewrite !M.
  destruct b as [|[|[|[|]]]]; try lia; reflexivity.
Qed.
Lemma sq3 : sqrt 3 * sqrt 3 = 3. Proof. apply sqrt_sqrt; lra. Qed.
Lemma sq2 : sqrt 2 * sqrt 2 = 2. Proof. apply sqrt_sqrt; lra. Qed.
Lemma p3 : 0 < sqrt 3. Proof. apply sqrt_lt_R0; lra. Qed.
Lemma p2 : 0 < sqrt 2. Proof. apply sqrt_lt_R0; lra. Qed.
Lemma powder_vol6 r : signed_vol6 (P0 r) (P1 r) (P2 r) (P3 r) = - (r * r * r) * (2 / sqrt 3) * (2 * / sqrt 3 * / sqrt 2 + / sqrt 2 + / sqrt 3).
Proof.
  unfold signed_vol6, P0, P1, P2, P3. vunf. unfold triple. vunf. pose proof p2. pose proof p3. unfold Rdiv. set (a := / sqrt 3). set (b := / sqrt 2). ring.
Qed.
Lemma vol6_factor : 0 < (2 / sqrt 3) * (2 * / sqrt 3 * / sqrt 2 + / sqrt 2 + / sqrt 3).
Proof.
  pose proof (Rinv_0_lt_compat _ p2) as A. pose proof (Rinv_0_lt_compat _ p3) as B. unfold Rdiv. apply Rmult_lt_0_compat; [lra|]. pose proof (Rmult_lt_0_compat _ _ B A). nra.
Qed.
Lemma powder_tet_vol r k : signed_vol6 (q0 (powder_tet r k)) (q1 (powder_tet r k)) (q2 (powder_tet r k)) (q3 (powder_tet r k))
  = (if Nat.even k then 1 else -1) * signed_vol6 (P0 r) (P1 r) (P2 r) (P3 r).
Proof.
  assert (C : forall a b c d, signed_vol6 d a b c = - signed_vol6 a b c d) by (intros; unfold signed_vol6, triple; clear; vdes; vunf; ring).
  unfold powder_tet. assert (E : Nat.even k = Nat.even (k mod 4)).
  { rewrite (Nat.div_mod k 4) at 1 by lia. rewrite Nat.even_add, Nat.even_mul. cbn [Nat.even orb]. now destruct (Nat.even (k mod 4)). }
  rewrite E. pose proof (Nat.mod_upper_bound k 4 ltac:(lia)) as B. destruct (k mod 4)%nat as [|[|[|[|]]]]; try lia; cbn [q0 q1 q2 q3 Nat.even].
  - ring.
  - rewrite (C (P0 r)). ring.
  - rewrite (C (P3 r) (P0 r)), (C (P0 r) (P1 r)). ring.
  - rewrite (C (P2 r) (P3 r)), (C (P3 r) (P0 r)), (C (P0 r) (P1 r)). ring.
Qed.
Lemma powder_tet_perm r k : Permutation (tet_list (powder_tet r k)) (powder_corners r).
Proof.
  unfold powder_tet. change (powder_corners r) with ([P0 r; P1 r; P2 r; P3 r]). destruct (k mod 4)%nat as [|[|[|]]]; unfold tet_list; cbn [q0 q1 q2 q3].
  - reflexivity.
  - exact (Permutation_app_comm [P3 r] [P0 r; P1 r; P2 r]).
  - exact (Permutation_app_comm [P2 r; P3 r] [P0 r; P1 r]).
  - exact (Permutation_app_comm [P1 r; P2 r; P3 r] [P0 r]).
Qed.
Lemma powder_norm r p : 0 <= r -> In p (powder_corners r) -> norm p = r.
Proof.
  intros Hr H. pose proof p2. pose proof p3. apply norm_sqrt_eq; auto. unfold powder_corners in H. cbn [In] in H.
  assert (A : / sqrt 3 * / sqrt 3 = / 3) by (rewrite <- Rinv_mult; now rewrite sq3). assert (B : / sqrt 2 * / sqrt 2 = / 2) by (rewrite <- Rinv_mult; now rewrite sq2).
  unfold Rdiv in H. set (a := / sqrt 3) in *. set (b := / sqrt 2) in *. clearbody a b.
  destruct H as [<-|[<-|[<-|[<-|[]]]]]; vunf.
  - replace (r * a * (r * a) + r * a * (r * a) + - r * a * (- r * a)) with (3 * (r * r) * (a * a)) by ring. rewrite A. field.
  - replace (r * a * (r * a) + - r * a * (- r * a) + - r * a * (- r * a)) with (3 * (r * r) * (a * a)) by ring. rewrite A. field.
  - replace (- r * b * (- r * b) + 0 * 0 + - r * b * (- r * b)) with (2 * (r * r) * (b * b)) by ring. rewrite B. field.
  - ring.
Qed.
Lemma powder_build r n : r <> 0 -> exists me, build_mesh (fst (powder_loop r n 0)) (snd (powder_loop r n 0)) = Ok me.
Proof.
  intros Hr. apply pC51_build_succeeds_iff. intros e He. apply In_nth_error in He as (k & Hk).
  assert (L : (k < n)%nat) by (rewrite <- (powder_enod_length r n 0); apply nth_error_Some; congruence).
  rewrite powder_enod in Hk by auto. change (0 + 3 * k)%nat with (3 * k)%nat in Hk. assert (Ee : e = (3 * k, 3 * k + 1, 3 * k + 2, 3 * k + 3)%nat) by congruence. clear Hk. subst e. exists (q0 (powder_tet r k)), (q1 (powder_tet r k)), (q2 (powder_tet r k)), (q3 (powder_tet r k)). split.
  - rewrite powder_gather by auto. f_equal. now destruct (powder_tet r k).
  - rewrite powder_tet_vol, powder_vol6. pose proof vol6_factor. replace (- (r * r * r) * (2 / sqrt 3) * (2 * / sqrt 3 * / sqrt 2 + / sqrt 2 + / sqrt 3)) with (- (r * r * r) * ((2 / sqrt 3) * (2 * / sqrt 3 * / sqrt 2 + / sqrt 2 + / sqrt 3))) by ring.
    apply Rmult_integral_contrapositive_currified; [destruct (Nat.even k); lra|]. apply Rmult_integral_contrapositive_currified; [|lra].
    apply Ropp_neq_0_compat. repeat apply Rmult_integral_contrapositive_currified; auto.
Qed.
Lemma powder_tets r n me : build_mesh (fst (powder_loop r n 0)) (snd (powder_loop r n 0)) = Ok me -> traverse (gather_tet (fst (powder_loop r n 0))) (snd (powder_loop r n 0)) = Ok (map (powder_tet r) (seq 0 n)).
Proof.
  intros _. assert (E : snd (powder_loop r n 0) = map (fun k => (3 * k, 3 * k + 1, 3 * k + 2, 3 * k + 3)%nat) (seq 0 n)).
  { assert (X : forall m base, snd (powder_loop r m base) = map (fun k => (base + 3 * k, base + 3 * k + 1, base + 3 * k + 2, base + 3 * k + 3)%nat) (seq 0 m)).
    { clear. induction m as [|m IH]; intros base; [reflexivity|]. cbn [powder_loop]. specialize (IH (base + 3)%nat). destruct (powder_loop r m (base + 3)) as [coord enod]. cbn [snd] in *. rewrite IH.
      cbn [seq map]. apply f_equal2; [repeat (apply f_equal2; [|lia]); lia|]. rewrite <- seq_shift, map_map. apply map_ext. intros k. repeat (apply f_equal2; [|lia]). lia. }
    rewrite X. apply map_ext. intros k. reflexivity. }
  rewrite E. assert (G : forall k, (k < n)%nat -> gather_tet (fst (powder_loop r n 0)) (3 * k, 3 * k + 1, 3 * k + 2, 3 * k + 3)%nat = Ok (powder_tet r k)) by (intros; now apply powder_gather).
  clear E. generalize (fst (powder_loop r n 0)), G. clear G. intros coord G.
  assert (X : forall m s, (s + m <= n)%nat -> traverse (gather_tet coord) (map (fun k => (3 * k, 3 * k + 1, 3 * k + 2, 3 * k + 3)%nat) (seq s m)) = Ok (map (powder_tet r) (seq s m))).
  { induction m; intros s Hs; [reflexivity|]. cbn [seq map traverse]. rewrite G by lia. cbn [bind]. rewrite IHm by lia. reflexivity. }
  apply X. lia.
Qed.
Lemma powder_inv x rots r n cell sg strain cif p : powder_sample x rots r n cell sg strain cif = Ok p ->
  (1 <= n)%nat /\ exists me, build_mesh (fst (powder_loop r n 0)) (snd (powder_loop r n 0)) = Ok me /\ make_polycrystal x me (Stack (rots n)) strain [make_phase cell sg cif] (Some (repeat 0 n)) = Ok p.
Proof.
  intros H. unfold powder_sample in H. destruct n as [|n]; [discriminate|]. split; [lia|]. remember (S n) as N. destruct (powder_loop r N 0) as [coord enod] eqn:E.
  destruct (build_mesh coord enod) as [me|] eqn:B; cbn [bind] in H; [|discriminate]. exists me. cbn [fst snd]. split; auto.
  apply build_mesh_inv in B as (ts & ss & _ & _ & ->). cbn [me_enod] in H. assert (L : len enod = N) by (rewrite <- (powder_enod_length r N 0), E; reflexivity). now rewrite L in H.
Qed.
(** A powder sample has as many elements as requested.  Each of them is the same tetrahedron,
    whose four corners lie on the sphere of the given radius around the origin (only the order of
    the corners changes), so it lies inside that sphere. *)
Lemma pC56_elements : forall x rots r n cell sg strain cif p, 0 < r -> powder_sample x rots r n cell sg strain cif = Ok p ->
  List.length (me_enod (pc_mesh_lab p)) = n /\
  (forall i, (i < n)%nat -> exists a b c d, corners (pc_mesh_lab p) i a b c d) /\
  forall i a b c d, corners (pc_mesh_lab p) i a b c d ->
    Permutation [a; b; c; d] [V3 (r / sqrt 3) (r / sqrt 3) (- r / sqrt 3); V3 (r / sqrt 3) (- r / sqrt 3) (- r / sqrt 3); V3 (- r / sqrt 2) 0 (- r / sqrt 2); V3 0 0 r] /\
    norm a = r /\ norm b = r /\ norm c = r /\ norm d = r /\
    forall s t u v, 0 <= s -> 0 <= t -> 0 <= u -> 0 <= v -> s + t + u + v = 1 -> norm (vadd (vscale s a) (vadd (vscale t b) (vadd (vscale u c) (vscale v d)))) <= r.
Proof.
  intros x rots r n cell sg strain cif p Hr H. apply powder_inv in H as (Hn & me & B & M). apply make_pc_inv in M as (ts' & U & eps & pm & eB & _ & _ & _ & _ & _ & ->). cbn [pc_mesh_lab].
  pose proof (powder_tets r n me B) as T. pose proof B as B'. apply build_mesh_inv in B as (ts & ss & E1 & E2 & ->). cbn [me_enod me_coord]. rewrite T in E1. injection E1 as E1.
  split; [apply powder_enod_length|].
  assert (C : forall i a b c d, corners (Mesh (fst (powder_loop r n 0)) (fst (powder_loop r n 0)) (snd (powder_loop r n 0)) (map elem_faces (snd (powder_loop r n 0))) (map enormals ts) (map ecentroid ts) (map snd ss) (map fst ss)
        (mean_list (map ecentroid ts)) (map evolume ts)) i a b c d <-> (i < n)%nat /\ Tet a b c d = powder_tet r i).
  { intros i a b c d. split.
    - intros (na & nb & nc & nd & E & Ha & Hb & Hc & Hd). cbn [me_enod me_coord] in *. assert (L : (i < n)%nat) by (rewrite <- (powder_enod_length r n 0); apply nth_error_Some; congruence). split; auto.
      rewrite powder_enod in E by auto. pose proof (powder_gather r n i L) as G. change (0 + 3 * i)%nat with (3 * i)%nat in E.
      assert (na = 3 * i /\ nb = 3 * i + 1 /\ nc = 3 * i + 2 /\ nd = 3 * i + 3)%nat as (-> & -> & -> & ->) by (clear -E; set (u := (3 * i)%nat) in *; clearbody u; repeat split; congruence). unfold gather_tet in G. rewrite Ha, Hb, Hc, Hd in G. now injection G.
    - intros [L E]. pose proof (powder_gather r n i L) as G. unfold gather_tet in G. unfold corners. cbn [me_enod me_coord]. rewrite powder_enod by auto. cbn [Nat.add].
      destruct (nth_error _ (3 * i)) as [ta|] eqn:Ea; [|discriminate]. destruct (nth_error _ (3 * i + 1)) as [tb|] eqn:Eb; [|discriminate]. destruct (nth_error _ (3 * i + 2)) as [tc|] eqn:Ec; [|discriminate]. destruct (nth_error _ (3 * i + 3)) as [td|] eqn:Ed; [|discriminate].
      rewrite <- E in G. injection G as -> -> -> ->. exists (3 * i)%nat, (3 * i + 1)%nat, (3 * i + 2)%nat, (3 * i + 3)%nat. auto. }
  split.
  - intros i Hi. destruct (powder_tet r i) as [a b c d] eqn:E. exists a, b, c, d. apply C. auto.
  - intros i a b c d Hc. apply C in Hc as [Hi E]. pose proof (powder_tet_perm r i) as P. rewrite <- E in P. unfold tet_list in P. cbn [q0 q1 q2 q3] in P. split; [exact P|].
    assert (N : forall v, In v [a; b; c; d] -> norm v = r) by (intros v Hv; apply (powder_norm r v); [lra|]; eapply Permutation_in; eauto).
    assert (Na : norm a = r) by (apply N; cbn; tauto). assert (Nb : norm b = r) by (apply N; cbn; tauto). assert (Nc : norm c = r) by (apply N; cbn; tauto). assert (Nd : norm d = r) by (apply N; cbn; tauto).
    do 4 (split; auto). intros s t u v Hs Ht Hu Hv S.
    eapply Rle_trans; [apply norm_triangle|]. eapply Rle_trans; [apply Rplus_le_compat_l, norm_triangle|]. eapply Rle_trans; [apply Rplus_le_compat_l, Rplus_le_compat_l, norm_triangle|].
    rewrite !norm_scale, !Rabs_right, Na, Nb, Nc, Nd by lra. replace (s * r + (t * r + (u * r + v * r))) with ((s + t + u + v) * r) by ring. rewrite S. lra.
Qed.
(** All grains have the same positive volume, belong to the one phase and get the orientations
    drawn; the mesh's own (signed) volume attribute alternates between minus and plus that
    volume, starting with minus. *)
Lemma pC56_volumes : forall x rots r n cell sg strain cif p, 0 < r -> powder_sample x rots r n cell sg strain cif = Ok p ->
  exists vol, 0 < vol /\ pc_volumes p = repeat vol n /\
    (forall i, (i < n)%nat -> nth_error (me_evolumes (pc_mesh_lab p)) i = Some ((if Nat.even i then -1 else 1) * vol)) /\
    pc_U p = rots n /\ pc_map p = MapTensor (repeat 0 n) /\ pc_phases p = [Phase cell sg cif None None].
Proof.
  intros x rots r n cell sg strain cif p Hr H. apply powder_inv in H as (Hn & me & B & M). apply make_pc_inv in M as (ts' & U & eps & pm & eB & T' & IU & _ & IP & _ & ->). cbn [pc_mesh_lab pc_volumes pc_U pc_map pc_phases].
  pose proof (powder_tets r n me B) as T. apply build_mesh_inv in B as (ts & ss & E1 & E2 & ->). cbn [me_enod me_coord me_evolumes] in *. rewrite T in E1, T'. injection E1 as <-. injection T' as <-.
  rewrite powder_enod_length in *. pose proof vol6_factor as F. set (f := (2 / sqrt 3) * _) in F.
  assert (V : signed_vol6 (P0 r) (P1 r) (P2 r) (P3 r) = - (r * r * r * f)) by (rewrite powder_vol6; unfold f; ring).
  clearbody f. assert (V0 : 0 < r * r * r * f) by (repeat apply Rmult_lt_0_compat; auto). set (w := r * r * r * f) in *. clearbody w.
  exists (w / 6). split; [lra|]. split; [|split; [|split; [|split; [|reflexivity]]]].
  - rewrite map_map. rewrite (map_ext _ (fun _ => w / 6)).
    + clear. generalize 0%nat. induction n as [|n IH]; intros s; cbn [seq map repeat]; auto. f_equal. apply IH.
    + intros k. rewrite tet_volume_vol, powder_tet_vol, V. destruct (Nat.even k); [rewrite Rabs_left by lra|rewrite Rabs_right by lra]; lra.
  - intros i Hi. rewrite map_map, nth_error_map. rewrite nth_error_nth' with (d := 0%nat) by (rewrite seq_length; auto). rewrite seq_nth by auto. cbn [option_map Nat.add]. f_equal.
    rewrite evolume_vol, powder_tet_vol, V. destruct (Nat.even i); lra.
  - unfold instantiate_mats in IU. destruct (len (rots n) =? n)%nat; [|discriminate]. now injection IU.
  - unfold instantiate_phase in IP. now injection IP.
Qed.
(** The nodes of each grain but the last overlap with the next grain's, and the last n - 1 of
    the 4 n nodes belong to no element. *)
Lemma pC56_spare_nodes : forall x rots r n cell sg strain cif p, powder_sample x rots r n cell sg strain cif = Ok p ->
  List.length (me_coord (pc_mesh_lab p)) = (4 * n)%nat /\
  forall node, (exists i a b c d, nth_error (me_enod (pc_mesh_lab p)) i = Some (a, b, c, d) /\ In node [a; b; c; d]) <-> (node <= 3 * n)%nat.
Proof.
  intros x rots r n cell sg strain cif p H. apply powder_inv in H as (Hn & me & B & M). apply make_pc_inv in M as (ts' & U & eps & pm & eB & _ & _ & _ & _ & _ & ->). cbn [pc_mesh_lab].
  apply build_mesh_inv in B as (ts & ss & E1 & E2 & ->). cbn [me_enod me_coord]. split; [apply powder_coord_length|]. intros node. split.
  - intros (i & a & b & c & d & E & Hin). assert (L : (i < n)%nat) by (rewrite <- (powder_enod_length r n 0); apply nth_error_Some; congruence). rewrite powder_enod in E by auto.
    assert (a = 3 * i /\ b = 3 * i + 1 /\ c = 3 * i + 2 /\ d = 3 * i + 3)%nat as (-> & -> & -> & ->) by (clear -E; change (0 + 3 * i)%nat with (3 * i)%nat in E; set (u := (3 * i)%nat) in *; clearbody u; repeat split; congruence).
    cbn [In] in Hin. lia.
  - intros Hnode. set (i := Nat.min (node / 3) (n - 1)). assert (Hi : (i < n)%nat) by (unfold i; lia). exists i, (3 * i)%nat, (3 * i + 1)%nat, (3 * i + 2)%nat, (3 * i + 3)%nat. rewrite powder_enod by auto. cbn [Nat.add]. split; auto.
    pose proof (Nat.div_mod node 3 ltac:(lia)). pose proof (Nat.mod_upper_bound node 3 ltac:(lia)). cbn [In]. unfold i. lia.
Qed.
(** With the default (zero) strain the template always delivers. *)
Lemma pC56_succeeds : forall x rots r n cell sg cif, r <> 0 -> (1 <= n)%nat -> List.length (rots n) = n ->
  exists p, powder_sample x rots r n cell sg (One mzero) cif = Ok p.
Proof.
  intros x rots r n cell sg cif Hr Hn HL. destruct (powder_build r n Hr) as (me & B). unfold powder_sample. destruct n as [|n']; [lia|]. remember (S n') as n.
  destruct (powder_loop r n 0) as [coord enod] eqn:E. cbn [fst snd] in B. rewrite B. cbn [bind]. apply build_mesh_inv in B as (ts & ss & Ht & _ & ->). cbn [me_enod].
  assert (L : len enod = n) by (rewrite <- (powder_enod_length r n 0), E; reflexivity). rewrite L. unfold make_polycrystal. cbn [me_enod me_coord]. rewrite L, Ht. cbn [bind instantiate_mats]. rewrite HL, Nat.eqb_refl. cbn [bind instantiate_phase].
  unfold instantiate_eB. cbn [map_values eB_loop]. set (idx := where_eq (repeat 0 n) 0).
  assert (I : forall i, In i idx -> (i < n)%nat). { intros i Hi. apply where_eq_in in Hi. rewrite <- (repeat_length 0 n). apply nth_error_Some. congruence. }
  destruct (gather_total (repeat mzero n) idx) as [es Ees]; [intros i Hi; rewrite repeat_length; auto|].
  destruct (gather_total (rots n) idx) as [us Eus]; [intros i Hi; rewrite HL; auto|]. rewrite Ees, Eus. cbn [bind].
  assert (Les : len es = len us). { apply gather_spec in Ees, Eus. apply Forall2_len in Ees, Eus. congruence. }
  assert (Z : forall e, In e es -> e = mzero). { intros e He. apply gather_spec in Ees. destruct (Forall2_in_r _ _ _ _ Ees He) as (i & Hi & Ei). apply nth_error_In in Ei. now apply repeat_spec in Ei. }
  assert (exists Bs, lab_strain_to_B (x_form_b x (ph_cell (make_phase cell sg cif))) es us = Ok Bs) as (Bs & ->).
  { unfold lab_strain_to_B. rewrite Les, Nat.eqb_refl. set (l := map _ _).
    assert (ZL : forall e, In e l -> e = mzero). { intros e He. apply in_map_iff in He as ([a u] & <- & Hin). apply in_combine_l in Hin. cbn [fst snd]. rewrite (Z a Hin). apply crystal_zero. }
    pose proof (pC20_zero_strain (x_form_b x (ph_cell (make_phase cell sg cif))) mI) as P. unfold lab_strain_to_B in P. cbn [List.length Nat.eqb combine map fst snd] in P. rewrite crystal_zero in P. unfold epsilon_to_b in *. cbn [forallb traverse List.length] in P.
    destruct (no_negative_eig (metric mzero)) eqn:NE; cbn [andb] in P; [|discriminate]. destruct (eps_to_B1 _ mzero) as [B1|] eqn:EB; [|discriminate].
    replace (forallb _ l) with true by (symmetry; apply forallb_forall; intros e He; now rewrite (ZL e He)).
    apply traverse_ok. intros e He. rewrite (ZL e He). eauto. }
  cbn [bind]. eexists. reflexivity.
Qed.
Lemma xC56_powder : exists p, powder_sample (ex_xtal []) (fun n => repeat mI n) 1 6 [] "" (One mzero) None = Ok p.
Proof. apply pC56_succeeds; [lra|lia|apply repeat_length]. Qed.
