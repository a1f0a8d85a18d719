(** * generate_mesh_from_levelset (mesh.py:108-213). *)
From Coq Require Import Ranalysis1 Rsqrt_def.
From Verif Require Import Vec Spec MLaue MMesh MDetector MBeam MLevelset SMesh SBeam SLevelset PLaue PMesh PDetector4 PBeam.
Open Scope R_scope.

(** ** the grid *)
Lemma levelset_n_ok R0 c : 0 < R0 -> 0 < c -> exists n, levelset_n R0 c = Ok n /\ resolution R0 c n.
Proof.
  intros HR Hc. unfold levelset_n. destruct (Req_EM_T (c * (1/2)) 0) as [E|E]; [lra|].
  replace (2 * R0 / (c * (1/2))) with (4 * R0 / c) by (field; lra).
  set (x := 4 * R0 / c). assert (Hx : 0 <= x) by (unfold x; apply Rlt_le, Rdiv_lt_0_compat; lra).
  destruct (ztrunc_nonneg x Hx) as [A B]. eexists. split; [reflexivity|].
  unfold resolution. fold x.
  assert (E2 : INR (Z.to_nat (Z.max (ztrunc x) 20)) = IZR (Z.max (ztrunc x) 20)) by (rewrite INR_IZR_INZ, Z2Nat.id; [reflexivity|lia]).
  rewrite E2. destruct (Z_le_gt_dec (ztrunc x) 20) as [L|L].
  - rewrite Z.max_r by lia. split; [lia|]. split; [|left; reflexivity]. apply IZR_le in L. lra.
  - rewrite Z.max_l by lia. split; [lia|]. split; [lra|]. right. lra.
Qed.
Lemma resolution_unique R0 c n m : resolution R0 c n -> resolution R0 c m -> n = m.
Proof.
  intros (A1 & A2 & A3) (B1 & B2 & B3).
  assert (K : forall u v : nat, (20 <= u)%nat -> (20 <= v)%nat -> 4 * R0 / c < INR u + 1 -> (v = 20%nat \/ INR v <= 4 * R0 / c) -> (v <= u)%nat).
  { intros u v Hu Hv H1 [ -> | H2 ]; [lia|]. apply Nat.lt_succ_r, INR_lt. rewrite S_INR. lra. }
  apply Nat.le_antisymm; eapply K; eauto.
Qed.
Lemma res_n1 R0 c n : resolution R0 c n -> 19 <= INR n - 1 /\ INR (n - 1) = INR n - 1.
Proof.
  intros (A & _). split; [|rewrite minus_INR by lia; reflexivity].
  apply le_INR in A. replace (INR 20) with 20 in A by (rewrite INR_IZR_INZ; reflexivity). lra.
Qed.
Lemma linspace_len a b n : List.length (linspace a b n) = n.
Proof. unfold linspace. rewrite map_length, seq_length. reflexivity. Qed.
Lemma linspace_at a b n i : (i < n)%nat -> nth i (linspace a b n) 0 = a + INR i * ((b - a) / INR (n - 1)).
Proof.
  intros H. unfold linspace.
  rewrite (nth_indep _ 0 ((fun i => a + INR i * ((b - a) / INR (n - 1))) 0%nat)) by (rewrite map_length, seq_length; auto).
  rewrite (map_nth (fun i => a + INR i * ((b - a) / INR (n - 1)))). rewrite seq_nth by auto. reflexivity.
Qed.
Lemma linspace_tick R0 c n i : resolution R0 c n -> (i < n)%nat -> nth i (linspace (- R0) R0 n) 0 = tick R0 n i.
Proof.
  intros Hr Hi. destruct (res_n1 _ _ _ Hr) as [A B]. rewrite linspace_at by auto. rewrite B. unfold tick. field. lra.
Qed.

Lemma nth_flat_map {A B} (f : A -> list B) (l : list A) m (da : A) (db : B) i j :
  (forall a, In a l -> List.length (f a) = m) -> (i < List.length l)%nat -> (j < m)%nat ->
  nth (i * m + j) (flat_map f l) db = nth j (f (nth i l da)) db.
Proof.
  revert i. induction l as [|x l IH]; intros i Hm Hi Hj; cbn in Hi; [lia|]. cbn [flat_map].
  assert (Hx : List.length (f x) = m) by (apply Hm; left; reflexivity).
  destruct i as [|i].
  - cbn [Nat.mul Nat.add nth]. rewrite app_nth1 by lia. reflexivity.
  - rewrite app_nth2 by (rewrite Hx; lia). replace (S i * m + j - List.length (f x))%nat with (i * m + j)%nat by (rewrite Hx; lia).
    rewrite IH by (auto; try lia; intros; apply Hm; right; auto). reflexivity.
Qed.
Lemma flat_map_len {A B} (f : A -> list B) (l : list A) m : (forall a, In a l -> List.length (f a) = m) -> List.length (flat_map f l) = (List.length l * m)%nat.
Proof.
  induction l as [|x l IH]; intros H; [reflexivity|]. cbn [flat_map]. rewrite app_length, (H x), IH by (try (left; reflexivity); intros; apply H; right; auto). reflexivity.
Qed.
Lemma row_len (xs : list R) x a : In a xs -> List.length (map (fun z => V3 x a z) xs) = List.length xs.
Proof. intros _. apply map_length. Qed.
Lemma plane_len (xs : list R) a : In a xs -> List.length (flat_map (fun y => map (fun z => V3 a y z) xs) xs) = (List.length xs * List.length xs)%nat.
Proof. intros _. apply flat_map_len. intros y _. apply map_length. Qed.
Lemma grid_len xs n : List.length xs = n -> List.length (levelset_grid xs xs xs) = (n * (n * n))%nat.
Proof. intros <-. unfold levelset_grid. apply flat_map_len. intros a Ha. apply plane_len, Ha. Qed.
Lemma index_lt n i j k : (i < n)%nat -> (j < n)%nat -> (k < n)%nat -> ((i * n + j) * n + k < n * (n * n))%nat.
Proof. intros. nia. Qed.
Lemma grid_at xs n i j k : List.length xs = n -> (i < n)%nat -> (j < n)%nat -> (k < n)%nat ->
  nth ((i * n + j) * n + k) (levelset_grid xs xs xs) vzero = V3 (nth i xs 0) (nth j xs 0) (nth k xs 0).
Proof.
  intros L Hi Hj Hk. unfold levelset_grid. replace ((i * n + j) * n + k)%nat with (i * (n * n) + (j * n + k))%nat by lia.
  rewrite (nth_flat_map _ xs (n * n) 0) by (try lia; try nia; intros; rewrite <- L; apply plane_len; auto).
  rewrite (nth_flat_map _ xs n 0) by (try lia; intros; rewrite map_length; auto).
  rewrite (nth_indep _ vzero ((fun z => V3 (nth i xs 0) (nth j xs 0) z) 0)) by (rewrite map_length; lia).
  rewrite (map_nth (fun z => V3 (nth i xs 0) (nth j xs 0) z)). reflexivity.
Qed.
Lemma grid_in R0 c n p : resolution R0 c n -> In p (levelset_grid (linspace (- R0) R0 n) (linspace (- R0) R0 n) (linspace (- R0) R0 n)) -> sample_point R0 n p.
Proof.
  intros Hr H. unfold levelset_grid in H. apply in_flat_map in H as (x & Hx & H). apply in_flat_map in H as (y & Hy & H).
  apply in_map_iff in H as (z & <- & Hz).
  apply (In_nth _ _ 0) in Hx as (i & Hi & Ei), Hy as (j & Hj & Ej), Hz as (k & Hk & Ek). rewrite linspace_len in *.
  exists i, j, k. repeat split; auto. rewrite <- Ei, <- Ej, <- Ek. erewrite !linspace_tick; eauto.
Qed.
Lemma grid_in_conv R0 c n p : resolution R0 c n -> sample_point R0 n p ->
  In p (levelset_grid (linspace (- R0) R0 n) (linspace (- R0) R0 n) (linspace (- R0) R0 n)).
Proof.
  intros Hr (i & j & k & Hi & Hj & Hk & ->).
  rewrite <- (linspace_tick R0 c n i), <- (linspace_tick R0 c n j), <- (linspace_tick R0 c n k) by auto.
  rewrite <- (grid_at _ n) by (auto using linspace_len). apply nth_In. rewrite (grid_len _ n) by apply linspace_len. apply index_lt; auto.
Qed.
Lemma traverse_ext {A B} (f g : A -> result B) l : (forall x, In x l -> f x = g x) -> traverse f l = traverse g l.
Proof.
  induction l as [|x l IH]; intros H; [reflexivity|]. cbn. rewrite (H x) by (left; reflexivity). rewrite IH by (intros; apply H; right; auto). reflexivity.
Qed.
Lemma traverse_total {A} (f : A -> result R) (g : A -> R) l : (forall x, In x l -> f x = Ok (g x)) -> traverse f l = Ok (map g l).
Proof.
  induction l as [|x l IH]; intros H; [reflexivity|]. cbn. rewrite (H x) by (left; reflexivity). cbn. rewrite IH by (intros; apply H; right; auto). reflexivity.
Qed.

(** ** inversion *)
Lemma reshape_value R0 c n f i j k : resolution R0 c n -> (i < n)%nat -> (j < n)%nat -> (k < n)%nat ->
  reshape3 n (map f (levelset_grid (linspace (- R0) R0 n) (linspace (- R0) R0 n) (linspace (- R0) R0 n))) i j k =
  f (V3 (tick R0 n i) (tick R0 n j) (tick R0 n k)).
Proof.
  intros Hr Hi Hj Hk. unfold reshape3.
  rewrite (nth_indep _ 0 (f vzero)) by (rewrite map_length, (grid_len _ n) by apply linspace_len; apply index_lt; auto).
  rewrite map_nth. rewrite grid_at by (auto using linspace_len). erewrite !linspace_tick; eauto.
Qed.
Definition step_of (R0 : R) (n : nat) : R := 2 * R0 / (INR n - 1).
Lemma first_ticks R0 c n : resolution R0 c n -> nth 0 (linspace (- R0) R0 n) 0 = - R0 /\
  nth 1 (linspace (- R0) R0 n) 0 - nth 0 (linspace (- R0) R0 n) 0 = step_of R0 n.
Proof.
  intros Hr. pose proof Hr as (A & _). erewrite !linspace_tick by (eauto; lia). destruct (res_n1 _ _ _ Hr) as [B _].
  unfold tick, step_of. cbn [INR]. split; field; lra.
Qed.
Lemma tick_step R0 c n i : resolution R0 c n -> tick R0 n i = INR i * step_of R0 n + - R0.
Proof. intros Hr. destruct (res_n1 _ _ _ Hr) as [B _]. unfold tick, step_of. field. lra. Qed.
Lemma step_pos R0 c n : 0 < R0 -> resolution R0 c n -> 0 < step_of R0 n.
Proof. intros HR Hr. destruct (res_n1 _ _ _ Hr) as [B _]. unfold step_of. apply Rdiv_lt_0_compat; lra. Qed.
Lemma step_small R0 c n : 0 < R0 -> 0 < c -> resolution R0 c n -> step_of R0 n < 21 / 38 * c.
Proof.
  intros HR Hc Hr. destruct (res_n1 _ _ _ Hr) as [B _]. destruct Hr as (_ & A & _). unfold step_of.
  assert (4 * R0 < (INR n + 1) * c).
  { apply (Rmult_lt_compat_r c) in A; [|lra]. replace (4 * R0 / c * c) with (4 * R0) in A by (field; lra). exact A. }
  apply (Rmult_lt_reg_r (INR n - 1)); [lra|]. replace (2 * R0 / (INR n - 1) * (INR n - 1)) with (2 * R0) by (field; lra). nra.
Qed.

(** the values a level set that never raises hands to marching cubes *)
Definition volume_of (f : vec -> R) (R0 : R) (n : nat) : nat -> nat -> nat -> R :=
  reshape3 n (map f (levelset_grid (linspace (- R0) R0 n) (linspace (- R0) R0 n) (linspace (- R0) R0 n))).
Lemma unfold_total marching build level_set f R0 c n : 0 < R0 -> 0 < c -> resolution R0 c n -> (forall p, sample_point R0 n p -> level_set p = Ok (f p)) ->
  mesh_from_levelset marching build level_set R0 c =
  bind (marching_step marching (volume_of f R0 n) n (V3 (step_of R0 n) (step_of R0 n) (step_of R0 n))) (fun s =>
    let verts := map (fun v => vadd v (V3 (- R0) (- R0) (- R0))) (fst s) in
    if isnil verts || isnil (snd s) then Err ValueError else
    bind (tetra_step build verts (snd s) (c^3 / 6)) (fun pe =>
      if isnil (fst pe) || isnil (snd pe) then Err ValueError else build_mesh (fst pe) (snd pe))).
Proof.
  intros HR Hc Hr Hf. unfold mesh_from_levelset. destruct (levelset_n_ok R0 c HR Hc) as (m & -> & Hm).
  rewrite (resolution_unique _ _ _ _ Hm Hr). cbn [bind].
  rewrite (traverse_total _ f) by (intros p Hp; apply Hf; eapply grid_in; eauto). cbn [bind].
  destruct (first_ticks _ _ _ Hr) as [E1 E2]. rewrite E2, E1. fold (volume_of f R0 n).
  destruct (marching_step marching (volume_of f R0 n) n (V3 (step_of R0 n) (step_of R0 n) (step_of R0 n))) as [ [vs fs] |]; [|reflexivity]. cbn [bind fst snd].
  destruct (_ || _); [reflexivity|]. destruct (tetra_step build _ fs (c ^ 3 / 6)) as [ [ps es] |]; reflexivity.
Qed.
Lemma isnil_false {A} (l : list A) : isnil l = false -> l <> [].
Proof. destruct l; [discriminate|]. intros _; discriminate. Qed.
Lemma levelset_inv marching build level_set f R0 c n me : 0 < R0 -> 0 < c -> resolution R0 c n -> (forall p, sample_point R0 n p -> level_set p = Ok (f p)) ->
  mesh_from_levelset marching build level_set R0 c = Ok me ->
  exists vs fs ps es, marching (volume_of f R0 n) n (V3 (step_of R0 n) (step_of R0 n) (step_of R0 n)) = Ok (vs, fs) /\ vs <> [] /\ fs <> [] /\
    build (map (fun v => vadd v (V3 (- R0) (- R0) (- R0))) vs) fs (c^3/6) = Ok (ps, es) /\ ps <> [] /\ es <> [] /\ build_mesh ps es = Ok me.
Proof.
  intros HR Hc Hr Hf H. rewrite (unfold_total _ _ _ f R0 c n) in H by auto. unfold marching_step, tetra_step in H.
  destruct (marching _ n _) as [ [vs fs] |e] eqn:E; [|destruct e; discriminate]. cbn [bind fst snd] in H.
  destruct (isnil _ || isnil fs) eqn:N; [discriminate|]. apply orb_false_iff in N as [N1 N2].
  destruct (build _ fs (c ^ 3 / 6)) as [ [ps es] |] eqn:B; [|discriminate]. cbn [bind fst snd] in H.
  destruct (isnil ps || isnil es) eqn:M; [discriminate|]. apply orb_false_iff in M as [M1 M2].
  exists vs, fs, ps, es. repeat split; auto using isnil_false. intros ->. discriminate.
Qed.

(** ** properties *)
(** The mesh depends on the level set only through its values on an n x n x n grid over the cube. *)
Lemma pC80_grid_only : forall marching build level_set level_set' R0 c n,
  0 < R0 -> 0 < c -> resolution R0 c n ->
  (forall p, sample_point R0 n p -> level_set p = level_set' p) ->
  mesh_from_levelset marching build level_set R0 c = mesh_from_levelset marching build level_set' R0 c.
Proof.
  intros marching build ls ls' R0 c n HR Hc Hr H. unfold mesh_from_levelset.
  destruct (levelset_n_ok R0 c HR Hc) as (m & -> & Hm). rewrite (resolution_unique _ _ _ _ Hm Hr). cbn [bind].
  rewrite (traverse_ext ls ls'); [reflexivity|]. intros p Hp. apply H. eapply grid_in; eauto.
Qed.

Lemma at_ends_tick R0 c n i a x : 0 < R0 -> resolution R0 c n -> at_ends i a -> x = tick R0 n a ->
  tick R0 n i <= x <= tick R0 n (S i).
Proof.
  intros HR Hr H ->. pose proof (step_pos _ _ _ HR Hr) as Hs. rewrite !(tick_step R0 c n) by auto. rewrite S_INR.
  destruct H as [-> | ->]; [|rewrite S_INR]; nra.
Qed.
Lemma between_coord u v lo hi t : lo <= u <= hi -> lo <= v <= hi -> 0 <= t <= 1 -> lo <= u + t * (v - u) <= hi.
Proof. intros. split; nra. Qed.
Lemma tick_range R0 c n i : 0 < R0 -> resolution R0 c n -> (i < n)%nat -> - R0 <= tick R0 n i <= R0.
Proof.
  intros HR Hr Hi. destruct (res_n1 _ _ _ Hr) as [B _]. rewrite (tick_step R0 c n) by auto. pose proof (step_pos _ _ _ HR Hr) as Hs.
  assert (0 <= INR i <= INR n - 1). { split; [apply pos_INR|]. apply le_INR in Hi. rewrite S_INR in Hi. lra. }
  split; [nra|]. assert ((INR n - 1) * step_of R0 n = 2 * R0) by (unfold step_of; field; lra). nra.
Qed.
Lemma cell_zero f R0 c n i j k a b d a' b' d' : 0 < R0 -> resolution R0 c n -> continuous_along_lines f ->
  at_ends i a -> at_ends j b -> at_ends k d -> at_ends i a' -> at_ends j b' -> at_ends k d' ->
  f (V3 (tick R0 n a) (tick R0 n b) (tick R0 n d)) <= 0 <= f (V3 (tick R0 n a') (tick R0 n b') (tick R0 n d')) ->
  exists p, f p = 0 /\ tick R0 n i <= vx p <= tick R0 n (S i) /\ tick R0 n j <= vy p <= tick R0 n (S j) /\ tick R0 n k <= vz p <= tick R0 n (S k).
Proof.
  intros HR Hr Hf Ha Hb Hd Ha' Hb' Hd' Hv.
  set (P := V3 (tick R0 n a) (tick R0 n b) (tick R0 n d)) in *. set (Q := V3 (tick R0 n a') (tick R0 n b') (tick R0 n d')) in *.
  destruct (IVT_cor (fun t => f (vadd P (vscale t (vsub Q P)))) 0 1) as (t & Ht & E); [apply Hf|lra| |].
  - replace (vadd P (vscale 0 (vsub Q P))) with P by veq. replace (vadd P (vscale 1 (vsub Q P))) with Q by veq. nra.
  - exists (vadd P (vscale t (vsub Q P))). split; [exact E|]. unfold P, Q. cbn.
    split; [|split]; apply between_coord; try assumption; (eapply (at_ends_tick R0 c); [exact HR|exact Hr| |reflexivity]; assumption).
Qed.
Lemma near_box u v h : 0 <= h -> Rabs (vx u - vx v) <= h -> Rabs (vy u - vy v) <= h -> Rabs (vz u - vz v) <= h -> dist u v <= sqrt 3 * h.
Proof.
  intros Hh A B C. unfold dist. apply Rsqr_incr_0; [|apply norm_nonneg|apply Rmult_le_pos; [apply sqrt_pos|auto] ].
  unfold Rsqr. replace (sqrt 3 * h * (sqrt 3 * h)) with (sqrt 3 * sqrt 3 * (h * h)) by ring. rewrite sqrt_sqrt by lra.
  replace (norm (vsub u v) * norm (vsub u v)) with (normsq (vsub u v)) by (symmetry; apply norm_sq).
  assert (K : forall x, Rabs x <= h -> x * x <= h * h) by (intros x Hx; revert Hx; unfold Rabs; destruct (Rcase_abs x); nra).
  apply K in A, B, C. revert A B C. destruct u, v. vunf. lra.
Qed.
Lemma sqrt3_lt : sqrt 3 < 38 / 21.
Proof.
  rewrite <- (sqrt_Rsqr (38/21)) by lra. apply sqrt_lt_1; unfold Rsqr; lra.
Qed.

Lemma vertex_facts marching f R0 c n vs fs w : 0 < R0 -> 0 < c -> resolution R0 c n -> vertices_in_crossed_cells marching ->
  marching (volume_of f R0 n) n (V3 (step_of R0 n) (step_of R0 n) (step_of R0 n)) = Ok (vs, fs) -> In w vs ->
  in_cube R0 (vadd w (V3 (- R0) (- R0) (- R0))) /\
  (continuous_along_lines f -> exists p, f p = 0 /\ in_cube R0 p /\ dist (vadd w (V3 (- R0) (- R0) (- R0))) p < c).
Proof.
  intros HR Hc Hr Hm E Hw. pose proof (step_pos _ _ _ HR Hr) as Hs.
  destruct (Hm (volume_of f R0 n) n (V3 (step_of R0 n) (step_of R0 n) (step_of R0 n)) vs fs Hs Hs Hs E w Hw) as (i & j & k & Hi & Hj & Hk & X & Y & Z & a & b & d & a' & b' & d' & Ha & Hb & Hd & Ha' & Hb' & Hd' & V).
  change (vx (V3 (step_of R0 n) (step_of R0 n) (step_of R0 n))) with (step_of R0 n) in X.
  change (vy (V3 (step_of R0 n) (step_of R0 n) (step_of R0 n))) with (step_of R0 n) in Y.
  change (vz (V3 (step_of R0 n) (step_of R0 n) (step_of R0 n))) with (step_of R0 n) in Z.
  rewrite S_INR in X, Y, Z.
  assert (La : forall u x, at_ends u x -> (S u < n)%nat -> (x < n)%nat) by (intros u x [-> | ->]; lia).
  pose proof (tick_range R0 c n i HR Hr ltac:(lia)) as T1. pose proof (tick_range R0 c n (S i) HR Hr ltac:(lia)) as T2.
  pose proof (tick_range R0 c n j HR Hr ltac:(lia)) as T3. pose proof (tick_range R0 c n (S j) HR Hr ltac:(lia)) as T4.
  pose proof (tick_range R0 c n k HR Hr ltac:(lia)) as T5. pose proof (tick_range R0 c n (S k) HR Hr ltac:(lia)) as T6.
  split.
  - rewrite !(tick_step R0 c n) in T1, T2, T3, T4, T5, T6 by auto. rewrite S_INR in T2, T4, T6. revert X Y Z. destruct w. unfold in_cube. cbn -[INR]. lra.
  - intros Hcont. unfold volume_of in V. rewrite !(reshape_value R0 c) in V by eauto.
    destruct (cell_zero f R0 c n i j k a b d a' b' d' HR Hr Hcont Ha Hb Hd Ha' Hb' Hd' V) as (p & F & Px & Py & Pz).
    exists p. split; [exact F|]. split; [unfold in_cube; lra|].
    apply Rle_lt_trans with (sqrt 3 * step_of R0 n).
    + rewrite !(tick_step R0 c n) in Px, Py, Pz by auto. rewrite S_INR in Px, Py, Pz. revert X Y Z Px Py Pz. destruct w, p. cbn -[INR]. intros.
      apply near_box; [lra| | |]; cbn -[INR]; apply Rabs_le; lra.
    + pose proof (step_small R0 c n HR Hc Hr). pose proof sqrt3_lt. pose proof (Rlt_sqrt3_0). nra.
Qed.

(** Every surface vertex handed to the mesher lies in the cube and closer than the requested
    cell circumradius to a true zero of the level set. *)
Lemma pC80_surface_close : forall marching build level_set f R0 c me,
  0 < R0 -> 0 < c -> vertices_in_crossed_cells marching -> (forall p, level_set p = Ok (f p)) -> continuous_along_lines f ->
  mesh_from_levelset marching build level_set R0 c = Ok me ->
  exists verts faces, verts <> [] /\ faces <> [] /\ me_enod me <> [] /\
    build verts faces (c^3/6) = Ok (me_coord me, me_enod me) /\
    forall v, In v verts -> in_cube R0 v /\ exists p, f p = 0 /\ in_cube R0 p /\ dist v p < c.
Proof.
  intros marching build ls f R0 c me HR Hc Hm Hf Hcont H.
  destruct (levelset_n_ok R0 c HR Hc) as (n & _ & Hr).
  destruct (levelset_inv marching build ls f R0 c n me HR Hc Hr (fun p _ => Hf p) H) as (vs & fs & ps & es & E & N1 & N2 & B & N3 & N4 & M).
  destruct (build_mesh_inv _ _ _ M) as (ts & ss & _ & _ & Eme).
  exists (map (fun v => vadd v (V3 (- R0) (- R0) (- R0))) vs), fs.
  split; [destruct vs; [congruence|discriminate] |]. split; [exact N2|].
  split; [rewrite Eme; exact N4|]. split; [rewrite Eme; exact B|].
  intros v Hv. apply in_map_iff in Hv as (w & <- & Hw).
  destruct (vertex_facts marching f R0 c n vs fs w HR Hc Hr Hm E Hw) as [A1 A2]. split; auto.
Qed.

Lemma hull_cube R0 verts p : (forall v, In v verts -> in_cube R0 v) -> in_hull verts p -> in_cube R0 p.
Proof.
  intros H Hp. unfold in_cube.
  assert (K : forall nrm, (forall v, In v verts -> dot nrm v + - R0 <= 0) -> dot nrm p + - R0 <= 0).
  { intros nrm Hn. exact (hull_halfspace verts p (HS nrm (- R0)) Hp Hn). }
  pose proof (K (V3 1 0 0)) as A1. pose proof (K (V3 (-1) 0 0)) as A2. pose proof (K (V3 0 1 0)) as B1. pose proof (K (V3 0 (-1) 0)) as B2.
  pose proof (K (V3 0 0 1)) as C1. pose proof (K (V3 0 0 (-1))) as C2. clear K.
  assert (Q : forall nrm, (forall v, in_cube R0 v -> dot nrm v + - R0 <= 0) -> forall v, In v verts -> dot nrm v + - R0 <= 0) by (intros nrm Hn v Hv; apply Hn, H, Hv).
  specialize (A1 (Q (V3 1 0 0) ltac:(intros [x y z]; unfold in_cube, dot; cbn; intros; lra))). specialize (A2 (Q (V3 (-1) 0 0) ltac:(intros [x y z]; unfold in_cube, dot; cbn; intros; lra))).
  specialize (B1 (Q (V3 0 1 0) ltac:(intros [x y z]; unfold in_cube, dot; cbn; intros; lra))). specialize (B2 (Q (V3 0 (-1) 0) ltac:(intros [x y z]; unfold in_cube, dot; cbn; intros; lra))).
  specialize (C1 (Q (V3 0 0 1) ltac:(intros [x y z]; unfold in_cube, dot; cbn; intros; lra))). specialize (C2 (Q (V3 0 0 (-1)) ltac:(intros [x y z]; unfold in_cube, dot; cbn; intros; lra))).
  clear Q H Hp. destruct p. revert A1 A2 B1 B2 C1 C2. unfold dot. cbn. intros. lra.
Qed.
(** All nodes of the mesh lie in the cube [-R, R]^3, if the mesher does not leave the hull of the surface. *)
Lemma pC80_mesh_in_cube : forall marching build level_set f R0 c me,
  0 < R0 -> 0 < c -> vertices_in_crossed_cells marching -> stays_in_hull build -> (forall p, level_set p = Ok (f p)) ->
  mesh_from_levelset marching build level_set R0 c = Ok me ->
  forall p, In p (me_coord me) -> in_cube R0 p.
Proof.
  intros marching build ls f R0 c me HR Hc Hm Hb Hf H p Hp.
  destruct (levelset_n_ok R0 c HR Hc) as (n & _ & Hr).
  destruct (levelset_inv marching build ls f R0 c n me HR Hc Hr (fun p _ => Hf p) H) as (vs & fs & ps & es & E & N1 & N2 & B & N3 & N4 & M).
  destruct (build_mesh_inv _ _ _ M) as (ts & ss & _ & _ & Eme). rewrite Eme in Hp. cbn in Hp.
  eapply hull_cube; [|exact (Hb _ _ _ _ _ B p Hp)]. intros v Hv. apply in_map_iff in Hv as (w & <- & Hw).
  exact (proj1 (vertex_facts marching f R0 c n vs fs w HR Hc Hr Hm E Hw)).
Qed.

(** Every exception is accounted for. *)
Lemma pC80_errors : forall marching build level_set R0 c e,
  mesh_from_levelset marching build level_set R0 c = Err e ->
  (c = 0 /\ e = ZeroDivisionError) \/ (exists p, level_set p = Err e) \/ e = ValueError \/
  (exists vol n h, marching vol n h = Err e /\ e <> ValueError /\ e <> RuntimeError) \/
  (exists verts faces points elements, build verts faces (c^3/6) = Ok (points, elements) /\ build_mesh points elements = Err e).
Proof.
  intros marching build ls R0 c e. unfold mesh_from_levelset, levelset_n.
  destruct (Req_EM_T (c * (1/2)) 0) as [E|E].
  { intros H. left. split; [lra|]. cbn in H. congruence. }
  cbn [bind]. set (n := Z.to_nat _).
  destruct (traverse ls _) as [values|e'] eqn:T.
  2:{ cbn [bind]. intros H. right; left. assert (e' = e) by congruence. subst e'.
      revert T. generalize (levelset_grid (linspace (- R0) R0 n) (linspace (- R0) R0 n) (linspace (- R0) R0 n)). clear.
      induction l as [|x l IH]; cbn; [discriminate|]. destruct (ls x) eqn:X; cbn.
      - destruct (traverse ls l); cbn; [discriminate|]. intros H; apply IH. congruence.
      - intros H; exists x. congruence. }
  cbn [bind]. unfold marching_step.
  destruct (marching _ n _) as [ [vs fs] |e'] eqn:M.
  2:{ intros H. assert (Dec : (e' = ValueError \/ e' = RuntimeError) \/ ~ (e' = ValueError \/ e' = RuntimeError)) by (destruct e'; first [left; tauto | right; intros [X|X]; discriminate]).
      destruct Dec as [ [-> | -> ] | N].
      - right; right; left. cbn in H. congruence.
      - right; right; left. cbn in H. congruence.
      - right; right; right; left. exists (reshape3 n values), n, (V3 (nth 1 (linspace (- R0) R0 n) 0 - nth 0 (linspace (- R0) R0 n) 0) (nth 1 (linspace (- R0) R0 n) 0 - nth 0 (linspace (- R0) R0 n) 0) (nth 1 (linspace (- R0) R0 n) 0 - nth 0 (linspace (- R0) R0 n) 0)).
        rewrite M. assert (e' = e) by (destruct e'; cbn in H; try congruence; tauto). subst e'. repeat split; [tauto|tauto]. }
  cbn [bind]. destruct (_ || _); [intros H; right; right; left; congruence|].
  unfold tetra_step. destruct (build _ fs (c ^ 3 / 6)) as [ [ps es] |] eqn:B; cbn [bind].
  2:{ intros H; right; right; left; congruence. }
  destruct (isnil ps || isnil es); [intros H; right; right; left; congruence|].
  intros H. right; right; right; right. eauto 10.
Qed.
Lemma pC80_zero_circumradius : forall marching build level_set R0, mesh_from_levelset marching build level_set R0 0 = Err ZeroDivisionError.
Proof. intros. unfold mesh_from_levelset, levelset_n. destruct (Req_EM_T (0 * (1/2)) 0) as [E|E]; [reflexivity|lra]. Qed.
(** A mesher that fails, or returns nothing, is reported as ValueError. *)
Lemma pC80_mesher_fails : forall marching build level_set f R0 c,
  0 < R0 -> 0 < c -> (forall p, level_set p = Ok (f p)) ->
  (forall vol n h e, marching vol n h = Err e -> e = ValueError \/ e = RuntimeError) ->
  (forall verts faces vmax, (exists e, build verts faces vmax = Err e) \/ (exists es, build verts faces vmax = Ok ([], es)) \/ (exists ps, build verts faces vmax = Ok (ps, []))) ->
  mesh_from_levelset marching build level_set R0 c = Err ValueError.
Proof.
  intros marching build ls f R0 c HR Hc Hf Hm Hb. destruct (levelset_n_ok R0 c HR Hc) as (n & _ & Hr).
  rewrite (unfold_total _ _ _ f R0 c n) by auto. unfold marching_step, tetra_step.
  destruct (marching _ n _) as [ [vs fs] |e] eqn:M; [|destruct (Hm _ _ _ _ M) as [-> | ->]; reflexivity].
  cbn [bind fst snd]. destruct (_ || _); [reflexivity|].
  destruct (Hb (map (fun v => vadd v (V3 (- R0) (- R0) (- R0))) vs) fs (c^3/6)) as [ (e & ->) | [ (es & ->) | (ps & ->) ] ]; try reflexivity.
  cbn [bind fst snd isnil]. rewrite orb_true_r. reflexivity.
Qed.
(** A level set without a sign change on the grid is refused. *)
Lemma pC80_no_sign_change : forall marching build level_set f R0 c n,
  0 < R0 -> 0 < c -> resolution R0 c n -> refuses_one_sign marching -> (forall p, level_set p = Ok (f p)) ->
  (forall p, sample_point R0 n p -> f p < 0) \/ (forall p, sample_point R0 n p -> 0 < f p) ->
  mesh_from_levelset marching build level_set R0 c = Err ValueError.
Proof.
  intros marching build ls f R0 c n HR Hc Hr Hm Hf Hs.
  rewrite (unfold_total _ _ _ f R0 c n) by auto. unfold marching_step. rewrite Hm; [reflexivity|].
  unfold volume_of. destruct Hs as [Hs|Hs]; [left|right]; intros i j k Hi Hj Hk; rewrite (reshape_value R0 c) by auto; apply Hs; exists i, j, k; auto.
Qed.
(** With the coarsest grid (c > 4R/21) the origin is no sample point: a body that stays closer to it than
    sqrt 3 R / 19 -- wider than the grid spacing 2R/19 -- is not found at all. *)
Lemma tick20 R0 i : (i < 20)%nat -> R0 * R0 / 361 <= tick R0 20 i * tick R0 20 i.
Proof.
  intros H. unfold tick. replace (INR 20) with 20 by (rewrite INR_IZR_INZ; reflexivity).
  assert (K : INR i <= 9 \/ 10 <= INR i).
  { destruct (le_lt_dec i 9) as [L|L]; [left|right]; [apply le_INR in L|apply le_INR in L]; [replace 9 with (INR 9) by (cbn; lra)|replace 10 with (INR 10) by (cbn; lra)]; exact L. }
  replace (- R0 + 2 * R0 * INR i / (20 - 1)) with (R0 * ((2 * INR i - 19) / 19)) by field.
  set (x := (2 * INR i - 19) / 19). assert (1 / 361 <= x * x). { unfold x. destruct K; nra. }
  replace (R0 * x * (R0 * x)) with (R0 * R0 * (x * x)) by ring. pose proof (Rle_0_sqr R0). unfold Rsqr in *. nra.
Qed.
Lemma pC80_small_body_missed : forall marching build level_set f R0 c,
  0 < R0 -> 4 * R0 / 21 < c -> refuses_one_sign marching -> (forall p, level_set p = Ok (f p)) ->
  (forall p, sqrt 3 * R0 / 19 <= norm p -> f p < 0) ->
  mesh_from_levelset marching build level_set R0 c = Err ValueError.
Proof.
  intros marching build ls f R0 c HR Hc Hm Hf Hp.
  assert (Hc0 : 0 < c) by lra.
  assert (Hr : resolution R0 c 20).
  { split; [lia|]. split; [|left; reflexivity]. replace (INR 20) with 20 by (rewrite INR_IZR_INZ; reflexivity).
    apply (Rmult_lt_reg_r c); [lra|]. replace (4 * R0 / c * c) with (4 * R0) by (field; lra). lra. }
  eapply pC80_no_sign_change; eauto. left. intros p (i & j & k & Hi & Hj & Hk & ->). apply Hp.
  pose proof (tick20 R0 i Hi). pose proof (tick20 R0 j Hj). pose proof (tick20 R0 k Hk).
  apply Rsqr_incr_0; [| |apply norm_nonneg].
  - unfold Rsqr. replace (norm (V3 (tick R0 20 i) (tick R0 20 j) (tick R0 20 k)) * norm (V3 (tick R0 20 i) (tick R0 20 j) (tick R0 20 k))) with (normsq (V3 (tick R0 20 i) (tick R0 20 j) (tick R0 20 k))) by (symmetry; apply norm_sq).
    replace (sqrt 3 * R0 / 19 * (sqrt 3 * R0 / 19)) with (sqrt 3 * sqrt 3 * (R0 * R0 / 361)) by field. rewrite sqrt_sqrt by lra.
    unfold normsq, dot. cbn [vx vy vz] || cbn -[tick]. lra.
  - apply Rmult_le_pos; [|lra]. apply Rmult_le_pos; [apply sqrt_pos|lra].
Qed.

(** ** The documented bounds *)
(** a level set whose positive part is not a ball: |x| > 1/2 *)
Definition slabs (p : vec) : R := vx p * vx p - 1/4.
Lemma slabs_cont : continuous_along_lines slabs.
Proof.
  intros p d. unfold slabs. assert (K : continuity (fun t => vx (vadd p (vscale t d)))).
  { cbn. apply continuity_plus; [apply continuity_const; intros x y; reflexivity|].
    apply continuity_mult; [apply derivable_continuous, derivable_id|apply continuity_const; intros x y; reflexivity]. }
  apply continuity_minus; [apply continuity_mult; exact K|apply continuity_const; intros x y; reflexivity].
Qed.
Lemma res11 : resolution 1 1 20.
Proof.
  split; [lia|]. split; [|left; reflexivity]. replace (INR 20) with 20 by (rewrite INR_IZR_INZ; reflexivity). lra.
Qed.
Lemma inr (z : Z) : (0 <= z)%Z -> INR (Z.to_nat z) = IZR z.
Proof. intros. rewrite INR_IZR_INZ, Z2Nat.id; auto. Qed.
Lemma tick11 (z : Z) : (0 <= z)%Z -> tick 1 20 (Z.to_nat z) = -1 + 2 * IZR z / 19.
Proof. intros. unfold tick. rewrite inr by auto. replace (INR 20) with 20 by (rewrite INR_IZR_INZ; reflexivity). field. Qed.
Lemma step11 : step_of 1 20 = 2 / 19.
Proof. unfold step_of. replace (INR 20) with 20 by (rewrite INR_IZR_INZ; reflexivity). field. Qed.
Lemma slabs_volume i j k : (i < 20)%nat -> (j < 20)%nat -> (k < 20)%nat -> volume_of slabs 1 20 i j k = tick 1 20 i * tick 1 20 i - 1/4.
Proof. intros. unfold volume_of. rewrite (reshape_value 1 1) by (auto; apply res11). reflexivity. Qed.
Lemma slabs_cross j k : (j < 20)%nat -> (k < 20)%nat ->
  volume_of slabs 1 20 4 j k * volume_of slabs 1 20 5 j k < 0 /\ volume_of slabs 1 20 14 j k * volume_of slabs 1 20 15 j k < 0.
Proof.
  intros. rewrite !slabs_volume by lia.
  pose proof (tick11 4 ltac:(lia)) as E4. pose proof (tick11 5 ltac:(lia)) as E5. pose proof (tick11 14 ltac:(lia)) as E14. pose proof (tick11 15 ltac:(lia)) as E15.
  change (Z.to_nat 4) with 4%nat in E4. change (Z.to_nat 5) with 5%nat in E5. change (Z.to_nat 14) with 14%nat in E14. change (Z.to_nat 15) with 15%nat in E15.
  rewrite E4, E5, E14, E15. lra.
Qed.

(** an implementation of marching cubes that meets the three promises: the middle of every crossed edge along x *)
Definition mc_edges : marching_cubes := fun vol n h =>
  let verts := flat_map (fun i => flat_map (fun j => flat_map (fun k =>
    if Rle_dec (vol i j k * vol (S i) j k) 0 then [V3 ((INR i + 1/2) * vx h) (INR j * vy h) (INR k * vz h)] else [])
    (seq 0 n)) (seq 0 n)) (seq 0 (n - 1)) in
  match verts with [] => Err ValueError | _ => Ok (verts, [(0, 0, 0)%nat]) end.
Lemma mc_edges_ok vol n h verts faces : mc_edges vol n h = Ok (verts, faces) ->
  forall v, In v verts <-> exists i j k, (S i < n)%nat /\ (j < n)%nat /\ (k < n)%nat /\ vol i j k * vol (S i) j k <= 0 /\ v = V3 ((INR i + 1/2) * vx h) (INR j * vy h) (INR k * vz h).
Proof.
  unfold mc_edges. set (L := flat_map _ _). intros H v.
  assert (E : L = verts) by (destruct L; [discriminate|congruence]). rewrite <- E. unfold L.
  rewrite in_flat_map. split.
  - intros (i & Hi & H1). apply in_flat_map in H1 as (j & Hj & H1). apply in_flat_map in H1 as (k & Hk & H1).
    apply in_seq in Hi, Hj, Hk. destruct (Rle_dec _ 0) as [D|D]; [|destruct H1]. destruct H1 as [<- | []]. exists i, j, k. repeat split; auto; lia.
  - intros (i & j & k & Hi & Hj & Hk & D & ->). exists i. split; [apply in_seq; lia|]. apply in_flat_map. exists j. split; [apply in_seq; lia|].
    apply in_flat_map. exists k. split; [apply in_seq; lia|]. destruct (Rle_dec _ 0); [left; reflexivity|contradiction].
Qed.
Lemma border_cell (n j : nat) h : (1 < n)%nat -> 0 < h -> (j < n)%nat -> exists j', (S j' < n)%nat /\ INR j' * h <= INR j * h <= INR (S j') * h /\ at_ends j' j.
Proof.
  intros Hn Hh Hj. destruct (Nat.eq_dec (S j) n) as [E|E].
  - exists (j - 1)%nat. split; [lia|]. replace (S (j - 1)) with j by lia. split; [|right; lia]. rewrite minus_INR by lia. cbn [INR]. nra.
  - exists j. split; [lia|]. split; [rewrite S_INR; nra|left; reflexivity].
Qed.
Lemma mc_edges_cells : vertices_in_crossed_cells mc_edges.
Proof.
  intros vol n h verts faces Hx Hy Hz H v Hv. apply (mc_edges_ok _ _ _ _ _ H) in Hv as (i & j & k & Hi & Hj & Hk & D & ->).
  destruct (border_cell n j (vy h) ltac:(lia) Hy Hj) as (j' & A1 & A2 & A3). destruct (border_cell n k (vz h) ltac:(lia) Hz Hk) as (k' & B1 & B2 & B3).
  exists i, j', k'. split; [auto|]. split; [auto|]. split; [auto|]. cbn -[INR]. split; [rewrite S_INR; nra|]. split; [exact A2|]. split; [exact B2|].
  assert (K : (vol i j k <= 0 <= vol (S i) j k) \/ (vol (S i) j k <= 0 <= vol i j k)).
  { destruct (Rle_lt_dec (vol i j k) 0), (Rle_lt_dec (vol (S i) j k) 0); try lra; try nra.
  }
  destruct K as [K|K].
  - exists i, j, k, (S i), j, k. repeat split; auto; unfold at_ends; tauto.
  - exists (S i), j, k, i, j, k. repeat split; auto; unfold at_ends; tauto.
Qed.
Lemma mc_edges_edges : vertex_on_crossed_edges mc_edges.
Proof.
  intros vol n h verts faces Hx Hy Hz H i j k Hi Hj Hk D. exists (V3 ((INR i + 1/2) * vx h) (INR j * vy h) (INR k * vz h)).
  split; [apply (mc_edges_ok _ _ _ _ _ H); exists i, j, k; repeat split; auto; lra|]. cbn -[INR]. rewrite S_INR. split; [nra|]. split; reflexivity.
Qed.
Lemma mc_edges_refuses : refuses_one_sign mc_edges.
Proof.
  intros vol n h H. unfold mc_edges. set (L := flat_map _ _). assert (E : L = []); [|rewrite E; reflexivity].
  destruct L as [|v L'] eqn:EL; [reflexivity|]. exfalso. assert (Hv : In v L) by (rewrite EL; left; reflexivity).
  unfold L in Hv. apply in_flat_map in Hv as (i & Hi & H1). apply in_flat_map in H1 as (j & Hj & H1). apply in_flat_map in H1 as (k & Hk & H1).
  apply in_seq in Hi, Hj, Hk. destruct (Rle_dec _ 0) as [D|D]; [|destruct H1].
  destruct H as [H|H]; pose proof (H i j k ltac:(lia) ltac:(lia) ltac:(lia)); pose proof (H (S i) j k ltac:(lia) ltac:(lia) ltac:(lia)); nra.
Qed.
Lemma mc_edges_fails vol n h e : mc_edges vol n h = Err e -> e = ValueError.
Proof. unfold mc_edges. destruct (flat_map _ _); congruence. Qed.
Lemma hull_cons x vs p : in_hull vs p -> in_hull (x :: vs) p.
Proof.
  intros (ws & L & P & S1 & ->). exists (0 :: ws). split; [cbn; congruence|]. split; [intros w [<- | Hw]; [lra|auto] |].
  split; [unfold sum_list in *; cbn [fold_right]; lra|]. cbn [combine map fold_right fst snd]. set (q := fold_right _ _ _). clearbody q. veq.
Qed.
Lemma hull_nil_sum vs : fold_right vadd vzero (map (fun wv : R * vec => vscale (fst wv) (snd wv)) (combine (repeat 0 (List.length vs)) vs)) = vzero.
Proof. induction vs as [|v vs IH]; [reflexivity|]. cbn [List.length repeat combine map fold_right]. rewrite IH. cbn [fst snd]. veq. Qed.
Lemma hull_in vs p : In p vs -> in_hull vs p.
Proof.
  induction vs as [|x vs IH]; [intros []|]. intros [-> |H]; [|apply hull_cons; auto].
  exists (1 :: repeat 0 (List.length vs)). split; [cbn; rewrite repeat_length; reflexivity|].
  split; [intros w [<- | Hw]; [lra|apply repeat_spec in Hw; lra] |]. split.
  - assert (E : sum_list (repeat 0 (List.length vs)) = 0) by (clear; unfold sum_list; induction (List.length vs); cbn [repeat fold_right]; lra). unfold sum_list in *. cbn [fold_right]. lra.
  - cbn [combine map fold_right fst snd]. rewrite hull_nil_sum. veq.
Qed.

Lemma vec_eq_dec (u v : vec) : {u = v} + {u <> v}.
Proof.
  destruct u as [a b c], v as [a' b' c'].
  destruct (Req_EM_T a a') as [-> |N]; [|right; intros E; apply N; exact (f_equal vx E)].
  destruct (Req_EM_T b b') as [-> |N]; [|right; intros E; apply N; exact (f_equal vy E)].
  destruct (Req_EM_T c c') as [-> |N]; [left; reflexivity|right; intros E; apply N; exact (f_equal vz E)].
Qed.
Definition has (verts : list vec) (v : vec) : bool := if in_dec vec_eq_dec v verts then true else false.
(** [pick a b c d verts]: a mesher that keeps the nodes and makes one element of four of them (repeated at the end). *)
Definition pick (a b c d : vec) : tet_build := fun verts _ _ =>
  if forallb (has verts) [a; b; c; d]
  then let n := List.length verts in Ok (verts ++ [a; b; c; d], [(n, n + 1, n + 2, n + 3)%nat])
  else Err RuntimeError.
Lemma pick_ok a b c d verts fs vmax : (forall v, In v [a; b; c; d] -> In v verts) ->
  pick a b c d verts fs vmax = Ok (verts ++ [a; b; c; d], [(List.length verts, List.length verts + 1, List.length verts + 2, List.length verts + 3)%nat])%list.
Proof.
  intros H. unfold pick. replace (forallb (has verts) [a; b; c; d]) with true; [reflexivity|]. symmetry. apply forallb_forall.
  intros v Hv. unfold has. destruct (in_dec vec_eq_dec v verts); [reflexivity|]. exfalso; auto.
Qed.
Lemma pick_inv a b c d verts fs vmax ps es : pick a b c d verts fs vmax = Ok (ps, es) ->
  (forall v, In v [a; b; c; d] -> In v verts) /\ ps = (verts ++ [a; b; c; d])%list.
Proof.
  unfold pick. destruct (forallb (has verts) [a; b; c; d]) eqn:E; [|discriminate]. intros H. split; [|congruence].
  intros v Hv. rewrite forallb_forall in E. specialize (E v Hv). unfold has in E. destruct (in_dec vec_eq_dec v verts); [assumption|discriminate].
Qed.
Lemma pick_keeps a b c d : keeps_nodes (pick a b c d).
Proof. intros verts faces vmax ps es H p Hp. apply pick_inv in H as (_ & ->). apply in_or_app. left. exact Hp. Qed.
Lemma pick_hull a b c d : stays_in_hull (pick a b c d).
Proof. intros verts faces vmax ps es H p Hp. apply pick_inv in H as (H & ->). apply hull_in. apply in_app_or in Hp as [Hp|Hp]; auto. Qed.
Lemma nth_app_tail {A} (l m : list A) k : nth_error (l ++ m)%list (List.length l + k) = nth_error m k.
Proof. rewrite nth_error_app2 by lia. f_equal. lia. Qed.
Lemma pick_builds (l : list vec) a b c d : signed_vol6 a b c d <> 0 ->
  exists me, build_mesh (l ++ [a; b; c; d]) [(List.length l, List.length l + 1, List.length l + 2, List.length l + 3)%nat] = Ok me.
Proof.
  intros H. apply pC51_build_succeeds_iff. intros e [<- | []]. exists a, b, c, d. split; [|exact H].
  unfold gather_tet. rewrite <- (Nat.add_0_r (List.length l)) at 1. rewrite !nth_app_tail. reflexivity.
Qed.
(** four surface vertices of the slabs *)
Definition sl (i2 j k : Z) : vec := V3 (-1 + IZR i2 / 19) (-1 + 2 * IZR j / 19) (-1 + 2 * IZR k / 19).
Definition slab_build : tet_build := pick (sl 9 0 0) (sl 9 1 0) (sl 9 0 1) (sl 29 0 0).
Lemma slabs_run (build : tet_build) : (forall verts fs, verts <> [] -> fs <> [] ->
   (forall v, In v [sl 9 0 0; sl 9 1 0; sl 9 0 1; sl 29 0 0] -> In v verts) ->
   exists ps es me, build verts fs (1^3/6) = Ok (ps, es) /\ ps <> [] /\ es <> [] /\ build_mesh ps es = Ok me) ->
  exists me, mesh_from_levelset mc_edges build (fun p => Ok (slabs p)) 1 1 = Ok me.
Proof.
  intros Hb. rewrite (unfold_total _ _ _ slabs 1 1 20) by (try lra; auto using res11). unfold marching_step.
  rewrite step11. assert (Hin : forall j k, (j < 20)%nat -> (k < 20)%nat -> forall i, i = 4%nat \/ i = 14%nat -> volume_of slabs 1 20 i j k * volume_of slabs 1 20 (S i) j k <= 0).
  { intros j k Hj Hk i [-> | ->]; destruct (slabs_cross j k Hj Hk); lra. }
  destruct (mc_edges (volume_of slabs 1 20) 20%nat (V3 (2/19) (2/19) (2/19))) as [ [vs fs] |e] eqn:E.
  - pose proof (mc_edges_ok _ _ _ _ _ E) as K.
    assert (Fs : fs <> []). { revert E. unfold mc_edges. destruct (flat_map _ _); [discriminate|]. congruence. }
    assert (Hm : forall v, In v [sl 9 0 0; sl 9 1 0; sl 9 0 1; sl 29 0 0] -> In v (map (fun v => vadd v (V3 (- (1)) (- (1)) (- (1)))) vs)).
    { assert (Q : forall i j k, (i = 4%nat \/ i = 14%nat) -> (j < 20)%nat -> (k < 20)%nat ->
        In (vadd (V3 ((INR i + 1/2) * (2/19)) (INR j * (2/19)) (INR k * (2/19))) (V3 (- (1)) (- (1)) (- (1)))) (map (fun v => vadd v (V3 (- (1)) (- (1)) (- (1)))) vs)).
      { intros i j k Hi Hj Hk. apply in_map_iff. eexists. split; [reflexivity|]. apply K. exists i, j, k. repeat split; auto. destruct Hi as [-> | ->]; lia. }
      intros v [<- | [<- | [<- | [<- | [] ] ] ] ].
      - replace (sl 9 0 0) with (vadd (V3 ((INR 4 + 1/2) * (2/19)) (INR 0 * (2/19)) (INR 0 * (2/19))) (V3 (- (1)) (- (1)) (- (1)))); [apply Q; auto; lia|]. unfold sl. vext; cbn; lra.
      - replace (sl 9 1 0) with (vadd (V3 ((INR 4 + 1/2) * (2/19)) (INR 1 * (2/19)) (INR 0 * (2/19))) (V3 (- (1)) (- (1)) (- (1)))); [apply Q; auto; lia|]. unfold sl. vext; cbn; lra.
      - replace (sl 9 0 1) with (vadd (V3 ((INR 4 + 1/2) * (2/19)) (INR 0 * (2/19)) (INR 1 * (2/19))) (V3 (- (1)) (- (1)) (- (1)))); [apply Q; auto; lia|]. unfold sl. vext; cbn; lra.
      - replace (sl 29 0 0) with (vadd (V3 ((INR 14 + 1/2) * (2/19)) (INR 0 * (2/19)) (INR 0 * (2/19))) (V3 (- (1)) (- (1)) (- (1)))); [apply Q; auto; lia|]. unfold sl. vext; cbn; lra. }
    assert (Hn : map (fun v => vadd v (V3 (- (1)) (- (1)) (- (1)))) vs <> []) by (intros N; specialize (Hm _ (or_introl eq_refl)); rewrite N in Hm; destruct Hm).
    destruct (Hb _ fs Hn Fs Hm) as (ps & es & me & B & N1 & N2 & M). exists me. cbn [bind fst snd].
    destruct (map _ vs) eqn:EV; [congruence|]. destruct fs; [congruence|]. cbn [isnil orb]. unfold tetra_step. rewrite B. cbn [bind fst snd].
    destruct ps; [congruence|]. destruct es; [congruence|]. exact M.
  - exfalso. revert E. unfold mc_edges. set (L := flat_map _ _). intros E.
    assert (N : L = []) by (destruct L; [reflexivity|discriminate]).
    assert (In (V3 ((INR 4 + 1/2) * (2/19)) (INR 0 * (2/19)) (INR 0 * (2/19))) L); [|rewrite N in H; destruct H].
    unfold L. apply in_flat_map. exists 4%nat. split; [apply in_seq; lia|]. apply in_flat_map. exists 0%nat. split; [apply in_seq; lia|].
    apply in_flat_map. exists 0%nat. split; [apply in_seq; lia|]. destruct (Rle_dec _ 0) as [D|D]; [left; reflexivity|]. exfalso; apply D, Hin; auto; lia.
Qed.
Lemma slab_build_ok : exists me, mesh_from_levelset mc_edges slab_build (fun p => Ok (slabs p)) 1 1 = Ok me.
Proof.
  apply slabs_run. intros verts fs Hv Hf H. destruct (pick_builds verts (sl 9 0 0) (sl 9 1 0) (sl 9 0 1) (sl 29 0 0)) as (me & M).
  { unfold signed_vol6, triple, sl. cbn. unfold dot. cbn. lra. }
  eexists _, _, me. split; [apply pick_ok, H|]. repeat split; try discriminate; [|exact M]. destruct verts; discriminate.
Qed.
Lemma xC80_slabs : exists me, mesh_from_levelset mc_edges slab_build (fun p => Ok (slabs p)) 1 1 = Ok me /\
  vertices_in_crossed_cells mc_edges /\ vertex_on_crossed_edges mc_edges /\ refuses_one_sign mc_edges /\ stays_in_hull slab_build /\ keeps_nodes slab_build /\
  continuous_along_lines slabs.
Proof.
  destruct slab_build_ok as (me & H). exists me.
  repeat split; auto using mc_edges_edges, mc_edges_refuses, slabs_cont. 
  - exact mc_edges_cells.
  - apply pick_hull.
  - apply pick_keeps.
Qed.

(** "bounding_radius: bounding radius of mesh" does not hold: the bound is the cube, not the ball.  For the
    level set |x|^2 - 1/4 every marching cubes that puts vertices on crossed edges and every mesher that keeps
    its input nodes give a mesh with a node outside the ball. *)
Lemma pC80_bounding_radius_refuted : exists level_set R0 c, 0 < R0 /\ 0 < c /\
  (exists marching build me, vertices_in_crossed_cells marching /\ vertex_on_crossed_edges marching /\ refuses_one_sign marching /\
     stays_in_hull build /\ keeps_nodes build /\ mesh_from_levelset marching build level_set R0 c = Ok me) /\
  forall marching build me, vertex_on_crossed_edges marching -> keeps_nodes build ->
    mesh_from_levelset marching build level_set R0 c = Ok me -> exists p, In p (me_coord me) /\ R0 < norm p.
Proof.
  exists (fun p => Ok (slabs p)), 1, 1. split; [lra|]. split; [lra|]. split.
  { destruct xC80_slabs as (me & A & B & C & D & E & F & _). exists mc_edges, slab_build, me. repeat split; assumption. }
  intros marching build me Hm Hb H.
  assert (H01 : 0 < 1) by lra.
  destruct (levelset_inv marching build _ slabs 1 1 20 me H01 H01 res11 (fun p _ => eq_refl) H) as (vs & fs & ps & es & E & N1 & N2 & B & N3 & N4 & M).
  destruct (build_mesh_inv _ _ _ M) as (ts & ss & _ & _ & Eme).
  assert (Hs : 0 < step_of 1 20) by (rewrite step11; lra).
  destruct (Hm (volume_of slabs 1 20) 20%nat (V3 (step_of 1 20) (step_of 1 20) (step_of 1 20)) vs fs Hs Hs Hs E 4%nat 19%nat 19%nat) as (v & Hv & _ & Vy & Vz);
    [lia|lia|lia|exact (proj1 (slabs_cross 19 19 ltac:(lia) ltac:(lia)))|].
  exists (vadd v (V3 (- (1)) (- (1)) (- (1)))). split.
  - rewrite Eme. apply (Hb _ _ _ _ _ B). apply in_map_iff. eauto.
  - assert (Q : vy v - 1 = 1 /\ vz v - 1 = 1).
    { rewrite Vy, Vz. cbn -[INR step_of]. rewrite step11. replace (INR 19) with 19 by (rewrite INR_IZR_INZ; reflexivity). lra. }
    destruct v as [x y z]. change (y - 1 = 1 /\ z - 1 = 1) in Q. destruct Q as [Q1 Q2].
    unfold norm. assert (S2 : 1 < sqrt 2) by (pose proof (sqrt_lt_1 1 2 ltac:(lra) ltac:(lra) ltac:(lra)) as S2; rewrite sqrt_1 in S2; exact S2).
    apply Rlt_le_trans with (1 := S2). apply sqrt_le_1_alt.
    unfold normsq, dot. cbn. replace (y + - (1)) with 1 by lra. replace (z + - (1)) with 1 by lra.
    pose proof (Rle_0_sqr (x + - (1))) as P0. unfold Rsqr in P0. lra.
Qed.

(** "max_cell_circumradius: upper bound for element radii" does not hold either: the mesher is only given the
    volume bound c^3/6, which flat elements (slivers) of any size meet. *)
Definition sliver_s (vmax : R) : R := 1 + 6 * vmax.
Definition sliver_e (vmax : R) : R := vmax / (4 * (sliver_s vmax * sliver_s vmax)).
Definition sliver (vmax : R) : list vec :=
  let s := sliver_s vmax in let e := sliver_e vmax in [V3 s 0 e; V3 (- s) 0 e; V3 0 s (- e); V3 0 (- s) (- e)].
Definition sliver_build : tet_build := fun _ _ vmax => if Rlt_dec 0 vmax then Ok (sliver vmax, [(0, 1, 2, 3)%nat]) else Err RuntimeError.
Lemma sliver_pos vmax : 0 < vmax -> 1 < sliver_s vmax /\ 0 < sliver_e vmax /\ sliver_s vmax * sliver_s vmax * sliver_e vmax = vmax / 4.
Proof.
  intros H. assert (A : 1 < sliver_s vmax) by (unfold sliver_s; lra). split; [exact A|]. unfold sliver_e. set (s := sliver_s vmax) in *.
  assert (0 < s * s) by nra. split; [apply Rdiv_lt_0_compat; lra|]. field. lra.
Qed.
Lemma sliver_vol s e : signed_vol6 (V3 s 0 e) (V3 (- s) 0 e) (V3 0 s (- e)) (V3 0 (- s) (- e)) = 8 * (s * s * e).
Proof. unfold signed_vol6, triple. vunf. ring. Qed.
Lemma sq_le_dist a b r : 0 <= r -> r * r <= 4 * normsq (vsub a b) -> r <= 2 * dist a b.
Proof.
  intros H1 H2. unfold dist. pose proof (norm_nonneg (vsub a b)). pose proof (norm_sq (vsub a b)). 
  apply Rsqr_incr_0; [unfold Rsqr|auto|lra]. nra.
Qed.
Lemma sliver_quality vmax : 0 < vmax -> forall a b c d, sliver vmax = [a; b; c; d] -> quality vmax a b c d.
Proof.
  intros H a b c d E. destruct (sliver_pos vmax H) as (A1 & A2 & A3). unfold sliver in E.
  assert (A4 : sliver_e vmax < sliver_s vmax) by (assert (vmax < sliver_s vmax) by (unfold sliver_s; lra); assert (1 < sliver_s vmax * sliver_s vmax) by nra; nra).
  set (s := sliver_s vmax) in *. set (e := sliver_e vmax) in *. clearbody s e.
  assert (A5 : e * e <= s * s) by nra. assert (A6 : 0 <= e * e) by nra.
  injection E; intros; subst a b c d; clear E. split.
  - rewrite sliver_vol, A3. rewrite Rabs_right by lra. lra.
  - exists vzero, (sqrt (s * s + e * e)). split.
    + intros p [<- | [<- | [<- | [<- | [] ] ] ] ]; unfold dist, norm; f_equal; vunf; ring.
    + assert (Hq : 0 <= s * s + e * e) by nra.
      intros p q Hp Hq' N. apply sq_le_dist; [apply sqrt_pos|]. rewrite sqrt_sqrt by exact Hq.
      destruct Hp as [<- | [<- | [<- | [<- | [] ] ] ] ]; destruct Hq' as [<- | [<- | [<- | [<- | [] ] ] ] ];
        first [exfalso; apply N; reflexivity | clear N A3; vunf; nra].
Qed.
Lemma cube_lt a b : 0 < a -> 0 < b -> a^3 < b^3 -> a < b.
Proof. intros. destruct (Rlt_le_dec a b); [assumption|]. exfalso. assert (b * b <= a * a) by nra. assert (b * b * b <= a * a * a) by nra. lra. Qed.
Lemma pC80_circumradius_refuted : exists build,
  (forall verts faces vmax, 0 < vmax -> exists points elements, build verts faces vmax = Ok (points, elements) /\
     forall e, In e elements -> exists a b c d, gather_tet points e = Ok (Tet a b c d) /\ quality vmax a b c d) /\
  (exists marching level_set R0 c me, vertices_in_crossed_cells marching /\ 0 < R0 /\ 0 < c /\ mesh_from_levelset marching build level_set R0 c = Ok me) /\
  forall marching level_set f R0 c me, 0 < R0 -> 0 < c -> (forall p, level_set p = Ok (f p)) ->
    mesh_from_levelset marching build level_set R0 c = Ok me ->
    exists i rad, nth_error (me_eradius me) i = Some rad /\ c < rad.
Proof.
  assert (OK : forall vmax, 0 < vmax -> exists me, build_mesh (sliver vmax) [(0, 1, 2, 3)%nat] = Ok me).
  { intros vmax H. apply pC51_build_succeeds_iff. intros e [<- | []]. unfold sliver. cbv zeta. eexists _, _, _, _. split; [reflexivity|].
    rewrite sliver_vol. destruct (sliver_pos vmax H) as (_ & _ & ->). lra. }
  exists sliver_build. split; [|split].
  - intros verts faces vmax H. exists (sliver vmax), [(0, 1, 2, 3)%nat]. unfold sliver_build. destruct (Rlt_dec 0 vmax); [|contradiction]. split; [reflexivity|].
    intros e [<- | []]. destruct (sliver vmax) as [|a [|b [|c' [|d' [|] ] ] ] ] eqn:E; try discriminate E. exists a, b, c', d'. split; [reflexivity|]. apply sliver_quality; auto.
  - destruct (slabs_run sliver_build) as (me & H).
    { intros verts fs _ _ _. destruct (OK (1^3/6)) as (me & M); [lra|]. exists (sliver (1^3/6)), [(0, 1, 2, 3)%nat], me.
      unfold sliver_build. destruct (Rlt_dec 0 (1^3/6)) as [L|L]; [|exfalso; apply L; lra]. repeat split; auto; discriminate. }
    exists mc_edges, (fun p => Ok (slabs p)), 1, 1, me. split; [exact mc_edges_cells|]. split; [lra|]. split; [lra|]. exact H.
  - intros marching level_set f R0 c me HR Hc Hf H. destruct (levelset_n_ok R0 c HR Hc) as (n & _ & Hr).
    destruct (levelset_inv _ _ _ _ _ _ n me HR Hc Hr (fun p _ => Hf p) H) as (vs & fs & ps & es & _ & _ & _ & B & _ & _ & M).
    assert (Hv : 0 < c^3/6) by (assert (0 < c * c) by nra; assert (0 < c * c * c) by nra; lra).
    set (vmax := c^3/6) in *. unfold sliver_build in B. destruct (Rlt_dec 0 vmax); [|contradiction].
    assert (ps = sliver vmax /\ es = [(0, 1, 2, 3)%nat]) as [-> ->] by (split; congruence).
    destruct (build_mesh_inv _ _ _ M) as (ts & ss & _ & _ & Eme).
    destruct (sliver_pos vmax Hv) as (A1 & A2 & A3).
    destruct (pC51_sphere_contains_element _ _ me 0 (V3 (sliver_s vmax) 0 (sliver_e vmax)) (V3 (- sliver_s vmax) 0 (sliver_e vmax)) (V3 0 (sliver_s vmax) (- sliver_e vmax)) (V3 0 (- sliver_s vmax) (- sliver_e vmax)) M) as (ctr & rad & _ & Er & In).
    { exists 0%nat, 1%nat, 2%nat, 3%nat. rewrite Eme. repeat split; reflexivity. }
    exists 0%nat, rad. split; [exact Er|].
    assert (I1 := In 1 0 0 0 ltac:(lra) ltac:(lra) ltac:(lra) ltac:(lra) ltac:(lra)). assert (I2 := In 0 1 0 0 ltac:(lra) ltac:(lra) ltac:(lra) ltac:(lra) ltac:(lra)).
    unfold in_ball in I1, I2.
    match type of I1 with dist ?u _ <= _ => set (U := u) in * end. match type of I2 with dist ?u _ <= _ => set (W := u) in * end.
    assert (D : dist U W <= 2 * rad). { pose proof (PMesh.dist_comm ctr W). pose proof (norm_triangle (vsub U ctr) (vsub ctr W)) as T. replace (vadd (vsub U ctr) (vsub ctr W)) with (vsub U W) in T by veq. unfold dist in *. lra. }
    assert (D2 : dist U W = 2 * sliver_s vmax).
    { unfold dist, norm. replace (normsq (vsub U W)) with ((2 * sliver_s vmax)²) by (unfold U, W, Rsqr; vunf; ring). apply sqrt_Rsqr. lra. }
    assert (c < sliver_s vmax); [|lra]. apply cube_lt; [lra|lra|]. assert (c^3 = 6 * vmax) by (unfold vmax; field). unfold sliver_s in *. nra.
Qed.
Lemma xC80_small_body : exists f, f vzero > 0 /\ (forall p, sqrt 3 * 1 / 19 <= norm p -> f p < 0) /\
  4 * 1 / 21 < 1 /\ refuses_one_sign mc_edges /\ (exists p, f p = 0 /\ 2 * norm p > 2 * 1 / 19).
Proof.
  exists (fun p => 8/100 - norm p). split.
  { replace (norm vzero) with 0; [lra|]. unfold norm. replace (normsq vzero) with 0 by (vunf; ring). rewrite sqrt_0. reflexivity. }
  split.
  { intros p H. assert (152/100 < sqrt 3); [|lra]. rewrite <- (sqrt_Rsqr (152/100)) by lra. apply sqrt_lt_1; unfold Rsqr; lra. }
  split; [lra|]. split; [exact mc_edges_refuses|]. exists (V3 (8/100) 0 0).
  assert (E : norm (V3 (8/100) 0 0) = 8/100). { unfold norm. replace (normsq (V3 (8/100) 0 0)) with ((8/100)²) by (unfold Rsqr; vunf; ring). apply sqrt_Rsqr. lra. }
  rewrite E. lra.
Qed.
Lemma xC80_grid : exists (level_set level_set' : vec -> result R) n, level_set <> level_set' /\ resolution 1 1 n /\
  (forall p, sample_point 1 n p -> level_set p = level_set' p).
Proof.
  exists (fun _ => Ok 1), (fun p => Ok (if Rle_dec (vx p) 1 then 1 else 2)), 20%nat. split.
  { intros E. pose proof (f_equal (fun g => g (V3 2 0 0)) E) as Q. cbn in Q. destruct (Rle_dec 2 1); [lra|]. assert (1 = 2) by congruence. lra. }
  split; [exact res11|]. intros p (i & j & k & Hi & _ & _ & ->). change (vx (V3 (tick 1 20 i) (tick 1 20 j) (tick 1 20 k))) with (tick 1 20 i).
  destruct (tick_range 1 1 20 i ltac:(lra) res11 Hi). destruct (Rle_dec _ 1); [reflexivity|contradiction].
Qed.
Lemma xC80_mesher : forall vol n h e, mc_edges vol n h = Err e -> e = ValueError \/ e = RuntimeError.
Proof. intros vol n h e H. left. eapply mc_edges_fails; eauto. Qed.
