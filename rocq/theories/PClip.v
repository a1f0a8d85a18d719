(** * Proofs about MClip (C48). *)
From Verif Require Import Vec MBeam MClip SClip.
Open Scope R_scope.
Local Notation len := List.length.

Lemma fold_max_spec l : forall x, (x <= fold_left Rmax l x /\ (forall y, In y l -> y <= fold_left Rmax l x)) /\
  (fold_left Rmax l x = x \/ In (fold_left Rmax l x) l).
Proof.
  induction l as [|y l IH]; intros x; cbn [fold_left].
  - split; [split; [lra|intros y []]|auto].
  - destruct (IH (Rmax x y)) as [[A B] C]. split.
    + split; [pose proof (Rmax_l x y); lra|]. intros w [<-|Hw]; [pose proof (Rmax_r x y); lra|auto].
    + destruct C as [C|C]; [|right; right; auto]. rewrite C. unfold Rmax. destruct (Rle_dec x y); auto. right; left; auto.
Qed.
Lemma fold_min_spec l : forall x, (fold_left Rmin l x <= x /\ (forall y, In y l -> fold_left Rmin l x <= y)) /\
  (fold_left Rmin l x = x \/ In (fold_left Rmin l x) l).
Proof.
  induction l as [|y l IH]; intros x; cbn [fold_left].
  - split; [split; [lra|intros y []]|auto].
  - destruct (IH (Rmin x y)) as [[A B] C]. split.
    + split; [pose proof (Rmin_l x y); lra|]. intros w [<-|Hw]; [pose proof (Rmin_r x y); lra|auto].
    + destruct C as [C|C]; [|right; right; auto]. rewrite C. unfold Rmin. destruct (Rle_dec x y); auto. right; left; auto.
Qed.
Lemma rmax_spec l m : rmax_list l = Some m -> (forall y, In y l -> y <= m) /\ In m l.
Proof.
  destruct l as [|x l]; [discriminate|]. cbn. intros H; inversion H; subst. destruct (fold_max_spec l x) as [[A B] C]. split.
  - intros y [<-|Hy]; auto.
  - destruct C as [->|C]; auto.
Qed.
Lemma rmin_spec l m : rmin_list l = Some m -> (forall y, In y l -> m <= y) /\ In m l.
Proof.
  destruct l as [|x l]; [discriminate|]. cbn. intros H; inversion H; subst. destruct (fold_min_spec l x) as [[A B] C]. split.
  - intros y [<-|Hy]; auto.
  - destruct C as [->|C]; auto.
Qed.
(** Position of the line relative to one plane. *)
Lemma side_enter p dir pl t : dot (snd pl) dir < 0 -> (dot (snd pl) (vsub (on_line p dir t) (fst pl)) <= 0 <-> plane_param p dir pl <= t).
Proof.
  destruct pl as [pp n]. cbn [fst snd plane_param]. intros H.
  assert (E : dot n (vsub (on_line p dir t) pp) = t * dot n dir - (dot n pp - dot p n)) by (unfold on_line; vdes; vunf; ring).
  rewrite E. set (q := dot n dir) in *. set (c := dot n pp - dot p n) in *. clearbody q c. clear E. split; intros A.
  - apply Rmult_le_reg_r with (- q); [lra|]. unfold Rdiv. replace (c * / q * - q) with (- c) by (field; lra). lra.
  - apply Rmult_le_compat_r with (r := - q) in A; [|lra]. unfold Rdiv in A. replace (c * / q * - q) with (- c) in A by (field; lra). lra.
Qed.
Lemma side_leave p dir pl t : 0 < dot (snd pl) dir -> (dot (snd pl) (vsub (on_line p dir t) (fst pl)) <= 0 <-> t <= plane_param p dir pl).
Proof.
  destruct pl as [pp n]. cbn [fst snd plane_param]. intros H.
  assert (E : dot n (vsub (on_line p dir t) pp) = t * dot n dir - (dot n pp - dot p n)) by (unfold on_line; vdes; vunf; ring).
  rewrite E. set (q := dot n dir) in *. set (c := dot n pp - dot p n) in *. clearbody q c. clear E. split; intros A.
  - apply Rmult_le_reg_r with q; [lra|]. unfold Rdiv. replace (c * / q * q) with c by (field; lra). lra.
  - apply Rmult_le_compat_r with (r := q) in A; [|lra]. unfold Rdiv in A. replace (c * / q * q) with c in A by (field; lra). lra.
Qed.
Lemma side_parallel p dir pl t : parallel_to dir pl ->
  dot (snd pl) (vsub (on_line p dir t) (fst pl)) = dot (snd pl) (vsub p (fst pl)).
Proof.
  destruct pl as [pp n]. unfold parallel_to, on_line. cbn [fst snd]. intros H.
  transitivity (dot n (vsub p pp) + t * dot n dir); [vdes; vunf; ring|rewrite H; ring].
Qed.
Lemma line_inside p dir planes t : in_body planes (on_line p dir t) <->
  (forall pl, In pl planes -> dot (snd pl) dir < 0 -> plane_param p dir pl <= t) /\
  (forall pl, In pl planes -> 0 < dot (snd pl) dir -> t <= plane_param p dir pl) /\
  (forall pl, In pl planes -> parallel_to dir pl -> dot (snd pl) (vsub p (fst pl)) <= 0).
Proof.
  split.
  - intros H. repeat split; intros pl Hin Hd; specialize (H pl Hin).
    + now apply side_enter in H.
    + now apply side_leave in H.
    + now rewrite (side_parallel p dir pl t Hd) in H.
  - intros (A & B & C) pl Hin. destruct (Rtotal_order (dot (snd pl) dir) 0) as [H|[H|H]].
    + apply side_enter; auto.
    + rewrite side_parallel; auto.
    + apply side_leave; auto.
Qed.
Lemma te_in p dir planes y : In y (map (plane_param p dir) (filter (fun pl => Rltb (dot (snd pl) dir) 0) planes)) <->
  exists pl, In pl planes /\ dot (snd pl) dir < 0 /\ y = plane_param p dir pl.
Proof.
  rewrite in_map_iff. split.
  - intros (pl & <- & H). apply filter_In in H as [H1 H2]. apply Rltb_true in H2. eauto.
  - intros (pl & H1 & H2 & ->). exists pl. split; auto. apply filter_In. split; auto. now apply Rltb_true.
Qed.
Lemma tl_in p dir planes y : In y (map (plane_param p dir) (filter (fun pl => Rltb 0 (dot (snd pl) dir)) planes)) <->
  exists pl, In pl planes /\ 0 < dot (snd pl) dir /\ y = plane_param p dir pl.
Proof.
  rewrite in_map_iff. split.
  - intros (pl & <- & H). apply filter_In in H as [H1 H2]. apply Rltb_true in H2. eauto.
  - intros (pl & H1 & H2 & ->). exists pl. split; auto. apply filter_In. split; auto. now apply Rltb_true.
Qed.
Lemma rmax_none l : rmax_list l = None -> l = []. Proof. destruct l; [auto|discriminate]. Qed.
Lemma rmin_none l : rmin_list l = None -> l = []. Proof. destruct l; [auto|discriminate]. Qed.

(** A line that is inside the body exactly for t in [lo, hi] gets the length hi - lo
    (0 when it is at most 1e-12), provided it lies on the inner side of the faces
    parallel to it -- in particular when no face is parallel to it. *)
Lemma pC48_chord_length : forall planes p dir lo hi, chord planes p dir lo hi -> lo <= hi ->
  clip_length p dir planes = if Rltb (lo + / 10^12) hi then hi - lo else 0.
Proof.
  intros planes p dir lo hi Hc Hle. unfold clip_length. cbv zeta.
  assert (Hin : forall t, lo <= t <= hi -> in_body planes (on_line p dir t)) by (intros; now apply Hc).
  assert (Hpar : forall pl, In pl planes -> parallel_to dir pl -> dot (snd pl) (vsub p (fst pl)) <= 0).
  { specialize (Hin lo ltac:(lra)). apply line_inside in Hin. tauto. }
  destruct (rmax_list _) as [te|] eqn:Ee.
  - apply rmax_spec in Ee as [E1 E2]. destruct (rmin_list _) as [tl|] eqn:El.
    + apply rmin_spec in El as [L1 L2].
      assert (X : forall t, te <= t <= tl <-> lo <= t <= hi).
      { intros t. rewrite <- (Hc t), line_inside. split.
        - intros H. repeat split; auto.
          + intros pl Hp Hd. assert (plane_param p dir pl <= te) by (apply E1; apply te_in; eauto). lra.
          + intros pl Hp Hd. assert (tl <= plane_param p dir pl) by (apply L1; apply tl_in; eauto). lra.
        - intros (A & B & _). apply te_in in E2 as (pl & ? & ? & ->). apply tl_in in L2 as (pl' & ? & ? & ->). split; auto. }
      assert (te = lo /\ tl = hi) as [-> ->].
      { assert (A : te <= lo <= tl) by (apply X; lra). assert (B : te <= hi <= tl) by (apply X; lra).
        assert (C : lo <= te <= hi) by (apply X; lra). assert (D : lo <= tl <= hi) by (apply X; lra). lra. }
      reflexivity.
    + apply rmin_none in El. exfalso.
      assert (A : in_body planes (on_line p dir (hi + 1))).
      { apply line_inside. specialize (Hin hi ltac:(lra)). apply line_inside in Hin as (A & B & C). repeat split; auto.
        - intros pl Hp Hd. specialize (A pl Hp Hd). lra.
        - intros pl Hp Hd. assert (In (plane_param p dir pl) []) as []. rewrite <- El. apply tl_in. eauto. }
      apply Hc in A. lra.
  - apply rmax_none in Ee. exfalso.
    assert (A : in_body planes (on_line p dir (lo - 1))).
    { apply line_inside. specialize (Hin lo ltac:(lra)). apply line_inside in Hin as (A & B & C). repeat split; auto.
      - intros pl Hp Hd. assert (In (plane_param p dir pl) []) as []. rewrite <- Ee. apply te_in. eauto.
      - intros pl Hp Hd. specialize (B pl Hp Hd). lra. }
    apply Hc in A. lra.
Qed.
(** A line that misses a body without faces parallel to it gets length 0. *)
Lemma pC48_miss_is_zero : forall planes p dir, (forall pl, In pl planes -> ~ parallel_to dir pl) -> misses planes p dir ->
  clip_length p dir planes = 0.
Proof.
  intros planes p dir Hnp Hm. unfold clip_length. cbv zeta. destruct (rmax_list _) as [te|] eqn:Ee; auto.
  destruct (rmin_list _) as [tl|] eqn:El; auto. apply rmax_spec in Ee as [E1 E2]. apply rmin_spec in El as [L1 L2].
  destruct (Rltb _ _) eqn:E; auto. apply Rltb_true in E. exfalso. apply (Hm te). apply line_inside.
  assert (0 < / 10^12) by (apply Rinv_0_lt_compat, pow_lt; lra). repeat split.
  - intros pl Hp Hd. apply E1. apply te_in. eauto.
  - intros pl Hp Hd. assert (tl <= plane_param p dir pl) by (apply L1; apply tl_in; eauto). lra.
  - intros pl Hp Hd. now apply Hnp in Hd.
Qed.
(** The length is never negative. *)
Lemma pC48_nonnegative : forall planes p dir, 0 <= clip_length p dir planes.
Proof.
  intros planes p dir. unfold clip_length. cbv zeta. destruct (rmax_list _) as [te|]; [|lra]. destruct (rmin_list _) as [tl|]; [|lra].
  assert (0 < / 10^12) by (apply Rinv_0_lt_compat, pow_lt; lra).
  destruct (Rltb _ _) eqn:E; [|lra]. apply Rltb_true in E. lra.
Qed.
(** Sliding the start point along the line changes nothing. *)
Lemma pC48_start_point_irrelevant : forall planes p dir s, clip_length (on_line p dir s) dir planes = clip_length p dir planes.
Proof.
  intros planes p dir s. unfold clip_length. cbv zeta.
  assert (P : forall pl, dot (snd pl) dir <> 0 -> plane_param (on_line p dir s) dir pl = plane_param p dir pl - s).
  { intros [pp n] H. cbn [snd plane_param] in *. assert (E : dot (on_line p dir s) n = dot p n + s * dot n dir) by (unfold on_line; vdes; vunf; ring).
    rewrite E. field. auto. }
  assert (M1 : forall l x, fold_left Rmax (map (fun y => y - s) l) (x - s) = fold_left Rmax l x - s).
  { induction l; intros x; cbn [map fold_left]; auto. rewrite <- IHl. f_equal. unfold Rmax. destruct (Rle_dec (x - s) (a - s)), (Rle_dec x a); lra. }
  assert (M2 : forall l x, fold_left Rmin (map (fun y => y - s) l) (x - s) = fold_left Rmin l x - s).
  { induction l; intros x; cbn [map fold_left]; auto. rewrite <- IHl. f_equal. unfold Rmin. destruct (Rle_dec (x - s) (a - s)), (Rle_dec x a); lra. }
  assert (A : map (plane_param (on_line p dir s) dir) (filter (fun pl => Rltb (dot (snd pl) dir) 0) planes) =
              map (fun y => y - s) (map (plane_param p dir) (filter (fun pl => Rltb (dot (snd pl) dir) 0) planes))).
  { rewrite map_map. apply map_ext_in. intros pl H. apply filter_In in H as [_ H]. apply Rltb_true in H. apply P. lra. }
  assert (B : map (plane_param (on_line p dir s) dir) (filter (fun pl => Rltb 0 (dot (snd pl) dir)) planes) =
              map (fun y => y - s) (map (plane_param p dir) (filter (fun pl => Rltb 0 (dot (snd pl) dir)) planes))).
  { rewrite map_map. apply map_ext_in. intros pl H. apply filter_In in H as [_ H]. apply Rltb_true in H. apply P. lra. }
  rewrite A, B. destruct (map (plane_param p dir) (filter (fun pl => Rltb (dot (snd pl) dir) 0) planes)) as [|x l]; cbn [map rmax_list]; auto.
  destruct (map (plane_param p dir) (filter (fun pl => Rltb 0 (dot (snd pl) dir)) planes)) as [|y m]; cbn [map rmin_list]; auto.
  rewrite M1, M2. set (te := fold_left Rmax l x). set (tl := fold_left Rmin m y).
  destruct (Rltb (te - s + / 10^12) (tl - s)) eqn:E1, (Rltb (te + / 10^12) tl) eqn:E2; try lra.
  - apply Rltb_true in E1. apply Rltb_false in E2. lra.
  - apply Rltb_false in E1. apply Rltb_true in E2. lra.
Qed.
(** Faces parallel to the line are ignored altogether ... *)
Lemma pC48_parallel_faces_ignored : forall planes p dir par, (forall pl, In pl par -> parallel_to dir pl) ->
  clip_length p dir (par ++ planes) = clip_length p dir planes.
Proof.
  intros planes p dir par H. unfold clip_length. cbv zeta. rewrite !filter_app.
  assert (F : forall q, (forall pl, parallel_to dir pl -> q pl = false) -> filter q par = []).
  { intros q Hq. clear - H Hq. induction par as [|x l IH]; auto. cbn [filter]. rewrite Hq by (apply H; left; auto). apply IH. intros; apply H; right; auto. }
  rewrite !F; auto; intros pl Hp; unfold parallel_to in Hp; rewrite Hp; apply Rltb_false; lra.
Qed.
(** ... so a line that misses the unit cube altogether, running alongside one of its
    faces, is given length 1. *)
Definition unit_cube : list (vec * vec) :=
  [ (V3 1 0 0, V3 1 0 0); (V3 0 0 0, V3 (-1) 0 0); (V3 0 1 0, V3 0 1 0); (V3 0 0 0, V3 0 (-1) 0);
    (V3 0 0 1, V3 0 0 1); (V3 0 0 0, V3 0 0 (-1)) ].
Lemma cube_len y z : clip_length (V3 0 y z) (V3 1 0 0) unit_cube = 1.
Proof.
  unfold clip_length, unit_cube. cbv zeta. cbn [filter snd].
  repeat match goal with |- context[Rltb (dot ?a ?b) 0] => let v := constr:(dot a b) in
     first [ replace (Rltb v 0) with true by (symmetry; apply Rltb_true; vunf; lra) | replace (Rltb v 0) with false by (symmetry; apply Rltb_false; vunf; lra) ] end.
  repeat match goal with |- context[Rltb 0 (dot ?a ?b)] => let v := constr:(dot a b) in
     first [ replace (Rltb 0 v) with true by (symmetry; apply Rltb_true; vunf; lra) | replace (Rltb 0 v) with false by (symmetry; apply Rltb_false; vunf; lra) ] end.
  cbn [map plane_param rmax_list rmin_list fold_left].
  match goal with |- (if Rltb (?a + _) ?b then _ else _) = _ => replace a with 0 by (vunf; field); replace b with 1 by (vunf; field) end.
  assert (/ 10^12 < 1) by (rewrite <- Rinv_1; apply Rinv_lt_contravar; lra).
  replace (Rltb _ _) with true by (symmetry; apply Rltb_true; lra). lra.
Qed.
Lemma pC48_parallel_face_refuted : exists planes p dir, norm dir = 1 /\ in_body planes (V3 (1/2) (1/2) (1/2)) /\
  misses planes p dir /\ clip_length p dir planes = 1.
Proof.
  exists unit_cube, (V3 0 10 (1/2)), (V3 1 0 0). split.
  - unfold norm. replace (normsq (V3 1 0 0)) with 1 by (vunf; ring). apply sqrt_1.
  - split; [|split; [|apply cube_len]].
    + intros pl Hp. cbn [In unit_cube] in Hp. destruct Hp as [<-|[<-|[<-|[<-|[<-|[<-|[]]]]]]]; cbn [fst snd]; vunf; lra.
    + intros t H. specialize (H (V3 0 1 0, V3 0 1 0)). cbn [fst snd] in H. unfold on_line in H.
      assert (In (V3 0 1 0, V3 0 1 0) unit_cube) by (cbn; tauto). specialize (H H0). revert H. vunf. lra.
Qed.
(** The chord of the cube along x through its middle. *)
Lemma xC48_cube : chord unit_cube (V3 (-5) (1/2) (1/2)) (V3 1 0 0) 5 6 /\
  exists planes p dir, (forall pl, In pl planes -> ~ parallel_to dir pl) /\ misses planes p dir /\ (0 < List.length planes)%nat.
Proof.
  split.
  - intros t. unfold on_line. split.
    + intros H. assert (A : In (V3 1 0 0, V3 1 0 0) unit_cube) by (cbn; tauto). assert (B : In (V3 0 0 0, V3 (-1) 0 0) unit_cube) by (cbn; tauto).
      apply H in A. apply H in B. cbn [fst snd] in A, B. revert A B. vunf. lra.
    + intros Ht pl Hp. cbn [In unit_cube] in Hp. destruct Hp as [<-|[<-|[<-|[<-|[<-|[<-|[]]]]]]]; cbn [fst snd]; vunf; cbn; lra.
  - exists [(V3 1 0 0, V3 1 0 0); (V3 2 0 0, V3 (-1) 0 0)], (V3 0 0 0), (V3 1 0 0). split; [|split; [|cbn; lia]].
    + intros pl [<-|[<-|[]]]; unfold parallel_to; cbn [snd]; vunf; lra.
    + intros t H. pose proof (H _ (or_introl eq_refl)) as A. pose proof (H _ (or_intror (or_introl eq_refl))) as B.
      unfold on_line in A, B. cbn [fst snd] in A, B. revert A B. vunf. lra.
Qed.
(** ** Bodies given by the equations of a hull *)
(** The planes handed to the clipping routine bound the same body as the hull equations. *)
Lemma pC48_hull_body : forall eqs x, unit_normals eqs -> (in_body (hull_planes eqs) x <-> in_halfspaces eqs x).
Proof.
  intros eqs x Hu. assert (E : forall h, In h eqs -> dot (hs_n h) (vsub x (vscale (- hs_d h) (hs_n h))) = dot (hs_n h) x + hs_d h).
  { intros h Hh. specialize (Hu h Hh). rewrite <- (Rmult_1_r (hs_d h)). rewrite <- Hu at 2. replace (hs_d h * norm (hs_n h)) with (hs_d h * (norm (hs_n h) * norm (hs_n h))) by (rewrite Hu; ring).
    rewrite norm_sq. generalize (hs_n h) (hs_d h). clear. intros n d. vdes. vunf. ring. }
  unfold in_body, in_halfspaces, hull_planes. split; intros H.
  - intros h Hh. rewrite <- (E h Hh). apply (H (vscale (- hs_d h) (hs_n h), hs_n h)). apply in_map_iff. eauto.
  - intros pl Hpl. apply in_map_iff in Hpl as (h & <- & Hh). cbn [fst snd]. rewrite (E h Hh). auto.
Qed.
(** So the clipped length is the length of the ray inside the hull, up to the 1e-12 cut-off, when no
    face is parallel to the ray. *)
Lemma pC48_hull_length : forall eqs p dir L, unit_normals eqs -> (forall h, In h eqs -> dot (hs_n h) dir <> 0) -> length_inside eqs p dir L ->
  clip_length p dir (hull_planes eqs) = if Rltb (/ 10^12) L then L else 0.
Proof.
  intros eqs p dir L Hu Hp [(lo & hi & Hc & Hl & ->)|[Hm ->]].
  - rewrite (pC48_chord_length _ p dir lo hi); auto.
    + replace (Rltb (/ 10^12) (hi - lo)) with (Rltb (lo + / 10^12) hi); auto. destruct (Rltb (/ 10^12) (hi - lo)) eqn:E; [apply Rltb_true in E; apply Rltb_true|apply Rltb_false in E; apply Rltb_false]; lra.
    + intros t. rewrite pC48_hull_body by auto. apply Hc.
  - rewrite pC48_miss_is_zero.
    + replace (Rltb (/ 10^12) 0) with false; auto. symmetry. apply Rltb_false. left. apply Rinv_0_lt_compat. lra.
    + intros pl Hpl. apply in_map_iff in Hpl as (h & <- & Hh). unfold parallel_to. cbn [snd]. auto.
    + intros t Ht. apply pC48_hull_body in Ht; auto. now apply (Hm t).
Qed.
Lemma xC48_hull : exists eqs p dir, unit_normals eqs /\ (forall h, In h eqs -> dot (hs_n h) dir <> 0) /\ length_inside eqs p dir (3/2) /\ List.length eqs = 3%nat.
Proof.
  exists [HS (V3 1 0 0) (-3); HS (V3 (-1) 0 0) 1; HS (V3 (3/5) (4/5) 0) (- (3/2))], vzero, (V3 1 0 0).
  split; [|split; [|split; [|reflexivity]]].
  - intros h Hh. cbn in Hh. destruct Hh as [<-|[<-|[<-|[]]]]; unfold norm; (transitivity (sqrt 1); [f_equal; cbn; vunf; lra|apply sqrt_1]).
  - intros h Hh. cbn in Hh. destruct Hh as [<-|[<-|[<-|[]]]]; intros C; revert C; cbn [hs_n]; vunf; lra.
  - left. exists 1, (5/2). split; [|split; lra]. intros t. unfold on_line. split.
    + intros H. pose proof (H (HS (V3 (-1) 0 0) 1) ltac:(cbn; auto)) as A. pose proof (H (HS (V3 (3/5) (4/5) 0) (- (3/2))) ltac:(cbn; auto)) as B. revert A B. clear. cbn [hs_n hs_d]. vunf. lra.
    + intros Ht h Hh. cbn in Hh. destruct Hh as [<-|[<-|[<-|[]]]]; cbn [hs_n hs_d]; vunf; lra.
Qed.
