(** * Properties of the cylindrical sample (C76). *)
From Verif Require Import Vec Spec MMotion MLaue MMesh MScattering MStrain MBeam MPolycrystal MDetector MTemplates STemplates.
From Verif Require Import PDetector PDetector4 PRender PMesh PLaue PStrain PPolycrystal PPolycrystal3 PPowder POdf POdf2.
From Coq Require Import String Permutation Ratan.
Open Scope R_scope.
Local Notation len := List.length.

(** ** Counting *)
Lemma cyl_points_length n r dz : len (cylinder_points n r dz) = (2 * n + 2)%nat.
Proof. unfold cylinder_points. rewrite !app_length, !map_length, !seq_length. cbn [List.length]. lia. Qed.
Lemma flat_map_two {A B} (f g : A -> B) l : len (flat_map (fun a => [f a; g a]) l) = (2 * len l)%nat.
Proof. induction l; cbn [flat_map List.length app]; lia. Qed.
Lemma cyl_facets_length n : len (cylinder_facets n) = (4 * n)%nat.
Proof. unfold cylinder_facets. rewrite !app_length, !map_length, flat_map_two, !seq_length. lia. Qed.
(** ** The edges *)
(** i -> (i+1) mod n permutes 0..n-1. *)
Lemma shift_perm n : Permutation (map (fun i => (i + 1) mod n)%nat (seq 0 n)) (seq 0 n).
Proof.
  destruct n as [|m]; [constructor|]. rewrite seq_S, map_app. cbn [map Nat.add]. rewrite (map_ext_in (fun i => (i + 1) mod S m)%nat S).
  - rewrite seq_shift. replace ((m + 1) mod S m)%nat with 0%nat by (replace (m + 1)%nat with (S m) by lia; symmetry; apply Nat.mod_same; lia).
    replace (seq 0 m ++ [m])%list with (seq 0 (S m)) by apply (seq_S m 0). change (seq 0 (S m)) with (0%nat :: seq 1 m). apply Permutation_sym, Permutation_cons_append.
  - intros i Hi. apply in_seq in Hi. rewrite Nat.mod_small by lia. lia.
Qed.
Lemma flat_map_perm_cons {A B} (h : A -> list B) (k : A -> B) l : Permutation (flat_map (fun a => k a :: h a) l) (map k l ++ flat_map h l).
Proof.
  induction l as [|a l IH]; cbn [flat_map map app]; auto. apply perm_skip. etransitivity; [apply Permutation_app_head, IH|]. rewrite !app_assoc. apply Permutation_app_tail, Permutation_app_comm.
Qed.
Definition nx (n i : nat) : nat := ((i + 1) mod n)%nat.
(** The five families of edges: bottom spokes and rim, top spokes and rim, verticals, diagonals. *)
Definition cyl_edges (n : nat) : list (nat * nat) :=
  (map (fun i => edge_of (2 * n) i) (seq 0 n) ++ map (fun i => edge_of i (nx n i)) (seq 0 n) ++
   map (fun i => edge_of (2 * n + 1) (n + i)) (seq 0 n) ++ map (fun i => edge_of (n + i) (n + nx n i)) (seq 0 n) ++
   map (fun i => edge_of i (n + i)) (seq 0 n) ++ map (fun i => edge_of (nx n i) (n + i)) (seq 0 n))%list.
Lemma edge_sym a b : edge_of a b = edge_of b a.
Proof. unfold edge_of. now rewrite Nat.min_comm, Nat.max_comm. Qed.
Lemma shift_map {B} (k : nat -> B) n : Permutation (map (fun i => k (nx n i)) (seq 0 n)) (map k (seq 0 n)).
Proof. rewrite <- map_map with (f := nx n). apply Permutation_map, shift_perm. Qed.
Lemma flat_map_map_ {A B C} (f : A -> B) (g : B -> list C) l : flat_map g (map f l) = flat_map (fun a => g (f a)) l.
Proof. induction l; cbn; congruence. Qed.
Lemma flat_map_nil {A B} (l : list A) : flat_map (fun _ => @nil B) l = []. Proof. induction l; auto. Qed.
Lemma flat_map_ff {A B C} (f : A -> list B) (g : B -> list C) l : flat_map g (flat_map f l) = flat_map (fun a => flat_map g (f a)) l.
Proof. induction l; cbn [flat_map]; auto. rewrite flat_map_app. congruence. Qed.
Lemma flat3 {A B} (p q r : A -> B) l : Permutation (flat_map (fun a => [p a; q a; r a]) l) (map p l ++ map q l ++ map r l).
Proof.
  etransitivity; [apply flat_map_perm_cons|]. apply Permutation_app_head. etransitivity; [apply flat_map_perm_cons|]. apply Permutation_app_head. etransitivity; [apply (flat_map_perm_cons (fun _ => []))|]. rewrite flat_map_nil, app_nil_r. reflexivity.
Qed.
Lemma flat6 {A B} (p q r s t u : A -> B) l : Permutation (flat_map (fun a => [p a; q a; r a; s a; t a; u a]) l) (map p l ++ map q l ++ map r l ++ map s l ++ map t l ++ map u l).
Proof.
  do 3 (etransitivity; [apply flat_map_perm_cons|]; apply Permutation_app_head). apply flat3.
Qed.
Lemma facets_edges n : Permutation (flat_map facet_edges (cylinder_facets n)) (cyl_edges n ++ cyl_edges n).
Proof.
  unfold cylinder_facets. rewrite !flat_map_app, !flat_map_map_, flat_map_ff. cbn [flat_map facet_edges app].
  fold (nx n). set (l := seq 0 n).
  etransitivity; [apply Permutation_app; [apply flat3|apply Permutation_app; [apply flat3|apply flat6]]|].
  unfold cyl_edges. fold l.
  rewrite (map_ext (fun i => edge_of (nx n i) (2 * n)) (fun i => edge_of (2 * n) (nx n i))) by (intros; apply edge_sym).
  rewrite (map_ext (fun i => edge_of (n + i) (2 * n + 1)) (fun i => edge_of (2 * n + 1) (n + i))) by (intros; apply edge_sym).
  rewrite (map_ext (fun i => edge_of (n + nx n i) (n + i)) (fun i => edge_of (n + i) (n + nx n i))) by (intros; apply edge_sym).
  rewrite (map_ext (fun i => edge_of (n + i) i) (fun i => edge_of i (n + i))) by (intros; apply edge_sym).
  rewrite (map_ext (fun i => edge_of (n + i) (nx n i)) (fun i => edge_of (nx n i) (n + i))) by (intros; apply edge_sym).
  pose proof (shift_map (fun i => edge_of (2 * n) i) n) as S1. pose proof (shift_map (fun i => edge_of (2 * n + 1) (n + i)) n) as S2. pose proof (shift_map (fun i => edge_of i (n + i)) n) as S3. fold l in S1, S2, S3. cbv beta in *.
  change (fun a : nat => edge_of a ((a + 1) mod n)) with (fun a : nat => edge_of a (nx n a)).
  change (fun a : nat => edge_of (2 * n + 1) (n + (a + 1) mod n)) with (fun a : nat => edge_of (2 * n + 1) (n + nx n a)).
  change (fun a : nat => edge_of ((a + 1) mod n) (n + a)) with (fun a : nat => edge_of (nx n a) (n + a)).
  change (fun a : nat => edge_of ((a + 1) mod n) (n + (a + 1) mod n)) with (fun a : nat => edge_of (nx n a) (n + nx n a)).
  change (map (edge_of (2 * n)) l) with (map (fun i => edge_of (2 * n) i) l).
  set (dec := fun a b : nat * nat => ltac:(decide equality; apply Nat.eq_dec) : {a = b} + {a <> b}).
  apply (Permutation_count_occ dec). intros e. apply (proj1 (Permutation_count_occ dec _ _)) with (x := e) in S1, S2, S3. rewrite !count_occ_app. lia.
Qed.
Lemma nx_cases n i : (i < n)%nat -> (nx n i = i + 1 /\ i + 1 < n)%nat \/ (nx n i = 0 /\ i + 1 = n)%nat.
Proof.
  intros H. unfold nx. destruct (Nat.eq_dec (i + 1) n) as [E|E].
  - right. rewrite E, Nat.mod_same by lia. lia.
  - left. rewrite Nat.mod_small by lia. lia.
Qed.
Lemma nodup_map_in {A B} (f : A -> B) l : NoDup l -> (forall a b, In a l -> In b l -> f a = f b -> a = b) -> NoDup (map f l).
Proof.
  induction 1 as [|a l Ha Hl IH]; intros Hf; cbn [map]; constructor.
  - intros Hin. apply in_map_iff in Hin as (b & E & Hb). apply Ha. rewrite <- (Hf b a); auto; [now right|now left].
  - apply IH. intros; apply Hf; auto; now right.
Qed.
Lemma nodup_app {A} (l m : list A) : NoDup l -> NoDup m -> (forall x, In x l -> ~ In x m) -> NoDup (l ++ m).
Proof.
  induction 1 as [|a l Ha Hl IH]; intros Hm H; cbn [app]; auto. constructor.
  - intros Hin. apply in_app_or in Hin as [Hin|Hin]; [auto|]. apply (H a); [now left|auto].
  - apply IH; auto. intros x Hx. apply H. now right.
Qed.
Lemma pair_eq (a b c d : nat) : edge_of a b = edge_of c d -> Nat.min a b = Nat.min c d /\ Nat.max a b = Nat.max c d.
Proof. unfold edge_of. intros E. split; congruence. Qed.
Ltac nodup_seq := apply nodup_map_in; [apply seq_NoDup|];
  let i := fresh in let j := fresh in intros i j ?Hi ?Hj E; apply in_seq in Hi; apply in_seq in Hj; apply pair_eq in E.
Ltac edge_in H := apply in_map_iff in H as (? & ? & ?); subst.
Lemma cyl_edges_nodup n : (3 <= n)%nat -> NoDup (cyl_edges n).
Proof.
  intros Hn. unfold cyl_edges.
  repeat apply nodup_app;
    try (apply nodup_map_in; [apply seq_NoDup|]; intros i j Hi Hj E; apply in_seq in Hi, Hj; apply pair_eq in E; pose proof (nx_cases n i ltac:(lia)); pose proof (nx_cases n j ltac:(lia)); lia);
    intros e H1 H2; apply in_map_iff in H1 as (i & <- & Hi); apply in_seq in Hi; pose proof (nx_cases n i ltac:(lia)); repeat (apply in_app_or in H2 as [H2|H2]);
    apply in_map_iff in H2 as (j & E & Hj); apply in_seq in Hj; apply pair_eq in E; pose proof (nx_cases n j ltac:(lia)); lia.
Qed.
(** The surface handed to the mesh generator: 2n + 2 points, 4n triangles between them, closed
    without gaps - every edge belongs to exactly two triangles. *)
Lemma pC76_watertight : forall n radius dz, (3 <= n)%nat ->
  List.length (cylinder_points n radius dz) = (2 * n + 2)%nat /\ List.length (cylinder_facets n) = (4 * n)%nat /\
  (forall a b c, In (a, b, c) (cylinder_facets n) -> (a < 2 * n + 2)%nat /\ (b < 2 * n + 2)%nat /\ (c < 2 * n + 2)%nat /\ a <> b /\ b <> c /\ c <> a) /\
  exists edges, NoDup edges /\ Permutation (flat_map facet_edges (cylinder_facets n)) (edges ++ edges).
Proof.
  intros n r dz Hn. split; [apply cyl_points_length|]. split; [apply cyl_facets_length|]. split.
  - intros a b c H. unfold cylinder_facets in H. fold (nx n) in H. apply in_app_or in H as [H|H]; [|apply in_app_or in H as [H|H]].
    + apply in_map_iff in H as (i & E & Hi). apply in_seq in Hi. pose proof (nx_cases n i ltac:(lia)) as N. unfold nx in N. assert (a = 2 * n /\ b = i /\ c = (i + 1) mod n)%nat as (-> & -> & ->) by (set (u := (2 * n)%nat) in *; clearbody u; repeat split; congruence). lia.
    + apply in_map_iff in H as (i & E & Hi). apply in_seq in Hi. pose proof (nx_cases n i ltac:(lia)) as N. unfold nx in N. assert (a = 2 * n + 1 /\ b = n + (i + 1) mod n /\ c = n + i)%nat as (-> & -> & ->) by (set (u := (2 * n + 1)%nat) in *; clearbody u; repeat split; congruence). lia.
    + apply in_flat_map in H as (i & Hi & [E|[E|[] ] ]); apply in_seq in Hi; pose proof (nx_cases n i ltac:(lia)) as N; unfold nx in N.
      * assert (a = i /\ b = (i + 1) mod n /\ c = n + i)%nat as (-> & -> & ->) by (repeat split; congruence). lia.
      * assert (a = (i + 1) mod n /\ b = n + (i + 1) mod n /\ c = n + i)%nat as (-> & -> & ->) by (repeat split; congruence). lia.
  - exists (cyl_edges n). split; [now apply cyl_edges_nodup|apply facets_edges].
Qed.

(** ** The points *)
Lemma cyl_bottom n r dz i : (i < n)%nat -> nth i (cylinder_points n r dz) vzero = V3 (r * cos (INR i * (2 * PI / INR n))) (r * sin (INR i * (2 * PI / INR n))) (- dz).
Proof.
  intros H. unfold cylinder_points. cbv zeta. rewrite app_nth1 by (now rewrite map_length, seq_length).
  set (f := fun i : nat => _). rewrite (nth_indep _ vzero (f 0%nat)) by (now rewrite map_length, seq_length). rewrite map_nth, seq_nth by auto. reflexivity.
Qed.
Lemma cyl_top n r dz i : (i < n)%nat -> nth (n + i) (cylinder_points n r dz) vzero = V3 (r * cos (INR i * (2 * PI / INR n))) (r * sin (INR i * (2 * PI / INR n))) dz.
Proof.
  intros H. unfold cylinder_points. cbv zeta. rewrite app_nth2 by (rewrite map_length, seq_length; lia). rewrite map_length, seq_length. replace (n + i - n)%nat with i by lia. rewrite app_nth1 by (now rewrite map_length, seq_length).
  set (f := fun i : nat => V3 _ _ dz). rewrite (nth_indep _ vzero (f 0%nat)) by (now rewrite map_length, seq_length). rewrite map_nth, seq_nth by auto. reflexivity.
Qed.
Lemma cyl_centres n r dz : nth (2 * n) (cylinder_points n r dz) vzero = V3 0 0 (- dz) /\ nth (2 * n + 1) (cylinder_points n r dz) vzero = V3 0 0 dz.
Proof.
  unfold cylinder_points. cbv zeta. split; (rewrite app_nth2 by (rewrite map_length, seq_length; lia)); rewrite map_length, seq_length; (rewrite app_nth2 by (rewrite map_length, seq_length; lia)); rewrite map_length, seq_length.
  - now replace (2 * n - n - n)%nat with 0%nat by lia.
  - now replace (2 * n + 1 - n - n)%nat with 1%nat by lia.
Qed.
Lemma next_angle n i : (i < n)%nat -> cos (INR (nx n i) * (2 * PI / INR n)) = cos (INR i * (2 * PI / INR n) + 2 * PI / INR n) /\ sin (INR (nx n i) * (2 * PI / INR n)) = sin (INR i * (2 * PI / INR n) + 2 * PI / INR n).
Proof.
  intros H. assert (N : 0 < INR n) by (apply lt_0_INR; lia). destruct (nx_cases n i H) as [[-> _]|[-> E]].
  - rewrite plus_INR. cbn [INR]. replace ((INR i + 1) * (2 * PI / INR n)) with (INR i * (2 * PI / INR n) + 2 * PI / INR n) by (field; lra). auto.
  - replace (INR i * (2 * PI / INR n) + 2 * PI / INR n) with (2 * PI). 2:{ rewrite <- E in *. rewrite plus_INR in *. cbn [INR] in *. field. lra. } cbn [INR]. rewrite Rmult_0_l, cos_0, sin_0, cos_2PI, sin_2PI. auto.
Qed.
Lemma sin_step n : (3 <= n)%nat -> 0 < sin (2 * PI / INR n) /\ cos (2 * PI / INR n) < 1.
Proof.
  intros H. assert (N : 3 <= INR n) by (replace 3 with (INR 3) by (cbn [INR]; ring); now apply le_INR). pose proof PI_RGT_0.
  assert (A : 0 < 2 * PI / INR n) by (apply Rdiv_lt_0_compat; lra). assert (B : 2 * PI / INR n < PI). { apply Rmult_lt_reg_r with (INR n); [lra|]. unfold Rdiv. rewrite Rmult_assoc, Rinv_l by lra. nra. }
  split; [now apply sin_gt_0|]. rewrite <- cos_0. apply cos_decreasing_1; lra.
Qed.
(** Every point lies on the cylinder of the given radius and half-height: on a rim or at the
    centre of a cap. *)
Lemma pC76_on_cylinder : forall n radius dz v, In v (cylinder_points n radius dz) ->
  (vz v = dz \/ vz v = - dz) /\ (vx v * vx v + vy v * vy v = radius * radius \/ (vx v = 0 /\ vy v = 0)).
Proof.
  intros n r dz v H. unfold cylinder_points in H. cbv zeta in H. apply in_app_or in H as [H|H]; [|apply in_app_or in H as [H|H]].
  - apply in_map_iff in H as (i & <- & _). cbn [vx vy vz]. split; [now right|left]. pose proof (sc1 (INR i * (2 * PI / INR n))). nra.
  - apply in_map_iff in H as (i & <- & _). cbn [vx vy vz]. split; [now left|left]. pose proof (sc1 (INR i * (2 * PI / INR n))). nra.
  - destruct H as [<-|[<-|[] ] ]; cbn [vx vy vz]; auto.
Qed.
(** The source says the caps are wound "for outward-facing normal": both caps face inward, while
    the side faces outward. *)
Lemma pC76_outward_refuted : forall n radius dz i, (3 <= n)%nat -> 0 < radius -> 0 < dz -> (i < n)%nat ->
  let pts := cylinder_points n radius dz in let next := ((i + 1) mod n)%nat in
  In (2 * n, i, next)%nat (cylinder_facets n) /\ faces_in pts (2 * n, i, next)%nat /\
  In (2 * n + 1, n + next, n + i)%nat (cylinder_facets n) /\ faces_in pts (2 * n + 1, n + next, n + i)%nat /\
  In (i, next, n + i)%nat (cylinder_facets n) /\ faces_out pts (i, next, n + i)%nat /\
  In (next, n + next, n + i)%nat (cylinder_facets n) /\ faces_out pts (next, n + next, n + i)%nat.
Proof.
  intros n r dz i Hn Hr Hz Hi. cbv zeta. destruct (sin_step n Hn) as [S C]. destruct (next_angle n i Hi) as [A B]. fold (nx n i).
  assert (Hx : (nx n i < n)%nat) by (destruct (nx_cases n i Hi); lia). destruct (cyl_centres n r dz) as [C1 C2]. pose proof (cyl_bottom n r dz i Hi) as P1. pose proof (cyl_bottom n r dz (nx n i) Hx) as P2. pose proof (cyl_top n r dz i Hi) as P3. pose proof (cyl_top n r dz (nx n i) Hx) as P4.
  rewrite A, B in P2, P4. rewrite cos_plus, sin_plus in P2, P4. pose proof (sc1 (INR i * (2 * PI / INR n))) as E. pose proof (sc1 (2 * PI / INR n)) as E'.
  set (a := INR i * (2 * PI / INR n)) in *. set (t := 2 * PI / INR n) in *. set (ca := cos a) in *. set (sa := sin a) in *. set (ct := cos t) in *. set (st := sin t) in *. clearbody ca sa ct st.
  assert (R2 : 0 < r * r) by nra. assert (RS : 0 < r * r * st) by nra. assert (RZ : 0 < r * r * st * dz) by nra.
  unfold cylinder_facets. split; [|split; [|split; [|split; [|split; [|split; [|split] ] ] ] ] ].
  - apply in_or_app. left. apply in_map_iff. exists i. split; auto. apply in_seq. lia.
  - unfold faces_in, facet_normal. cbn [fst snd]. rewrite C1, P1, P2. vunf. match goal with |- ?x < 0 => replace x with (- (r * r * st * dz) * (sa * sa + ca * ca)) by ring end. rewrite E. lra.
  - apply in_or_app. right. apply in_or_app. left. apply in_map_iff. exists i. split; auto. apply in_seq. lia.
  - unfold faces_in, facet_normal. cbn [fst snd]. rewrite C2, P3, P4. vunf. match goal with |- ?x < 0 => replace x with (- (r * r * st * dz) * (sa * sa + ca * ca)) by ring end. rewrite E. lra.
  - apply in_or_app. right. apply in_or_app. right. apply in_flat_map. exists i. split; [apply in_seq; lia|]. now left.
  - unfold faces_out, facet_normal. cbn [fst snd]. rewrite P1, P2, P3. vunf. match goal with |- 0 < ?x => replace x with (2 * (r * r * st * dz) * (sa * sa + ca * ca)) by ring end. rewrite E. lra.
  - apply in_or_app. right. apply in_or_app. right. apply in_flat_map. exists i. split; [apply in_seq; lia|]. right. now left.
  - unfold faces_out, facet_normal. cbn [fst snd]. rewrite P2, P3, P4. vunf. match goal with |- 0 < ?x => replace x with (2 * (r * r * st * dz) * (sa * sa + ca * ca)) by ring end. rewrite E. lra.
Qed.

(** ** The sample *)
(** Every element of the mesh the generator returns gets a rotation matrix as its orientation, the
    strain function's value at its own centroid, and the one phase. *)
Lemma pC76_sample : forall x gen tetgen odf crystals height radius cell sg cif separation strain p,
  polycrystal_from_odf x gen tetgen odf crystals height radius cell sg cif separation strain = Ok p ->
  let N := List.length (me_enod (pc_mesh_lab p)) in
  List.length (pc_U p) = N /\ (forall U, In U (pc_U p) -> is_rotation U) /\
  pc_eps p = map strain (me_ecentroids (pc_mesh_lab p)) /\ List.length (pc_eps p) = N /\
  pc_map p = MapTensor (repeat 0 N) /\ pc_phases p = [Phase cell sg cif None None].
Proof.
  intros x gen tetgen odf m h r cell sg cif sep strain p H. unfold polycrystal_from_odf in H. destruct m as [|m]; [discriminate|]. cbv zeta in H. destruct (tetgen _ _ _) as [vs es]. destruct (build_mesh vs es) as [me|] eqn:B; [|discriminate]. cbn [bind] in H.
  destruct (sample_odf gen odf sep (me_ecentroids me)) as [ors|] eqn:S; [|discriminate]. cbn [bind] in H. apply make_pc_inv in H as (ts & U & eps & pm & eB & _ & IU & IE & IP & _ & ->). cbv zeta. cbn [pc_mesh_lab pc_U pc_eps pc_map pc_phases].
  apply pC58_rotations in S as [L Rt]. unfold instantiate_mats in IU, IE. destruct (len ors =? _)%nat eqn:E1; [|discriminate]. destruct (len (map strain _) =? _)%nat eqn:E2; [|discriminate]. apply Nat.eqb_eq in E1, E2. assert (U = ors) by congruence. assert (eps = map strain (me_ecentroids me)) by congruence. subst.
  repeat split; auto; try (apply Rt; auto). unfold instantiate_phase in IP. congruence.
Qed.
(** The cylinder has at least eight sides. *)
Lemma pC76_sides : forall height radius crystals, (8 <= cylinder_sides height radius crystals)%nat.
Proof. intros. unfold cylinder_sides. lia. Qed.
Lemma mesh_centroids_length vs es me : build_mesh vs es = Ok me -> len (me_ecentroids me) = len (me_enod me) /\ exists ts, traverse (gather_tet (me_coord me)) (me_enod me) = Ok ts.
Proof.
  intros B. apply build_mesh_inv in B as (ts & ss & E1 & E2 & ->). cbn [me_ecentroids me_enod me_coord]. rewrite map_length. split; [now apply traverse_length in E1|eauto].
Qed.
(** Without strain, whenever the mesh generator returns a usable mesh and the density passes the
    sampler's checks at every element centroid, the sample is delivered. *)
Lemma pC76_succeeds : forall x gen tetgen odf crystals height radius cell sg cif separation vertices elements me,
  (1 <= crystals)%nat -> (forall pts facets v, tetgen pts facets v = (vertices, elements)) -> build_mesh vertices elements = Ok me ->
  0 < separation <= PI -> INR (odf_count separation) < 10^7 ->
  (forall c, In c (me_ecentroids me) -> Rabs (odf_total (odf_bin_step separation) odf c - 1) < 5/100 /\
     forall g, In g (odf_grid (odf_bin_step separation)) -> 0 <= odf c (grid_quat g)) ->
  exists p, polycrystal_from_odf x gen tetgen odf crystals height radius cell sg cif separation (fun _ => mzero) = Ok p.
Proof.
  intros x gen tetgen odf m h r cell sg cif sep vs es me Hm HT B H1 H2 H3. unfold polycrystal_from_odf. destruct m as [|m]; [lia|]. cbv zeta. rewrite HT, B. cbn [bind].
  destruct (pC58_accepted gen odf sep (me_ecentroids me) H1 H2 H3) as (U & S). rewrite S. cbn [bind]. apply pC58_rotations in S as [LU _]. destruct (mesh_centroids_length _ _ _ B) as (LC & ts & Ht). set (n := len (me_enod me)) in *.
  unfold make_polycrystal. fold n. rewrite Ht. cbn [bind instantiate_mats]. assert (HL : len U = n) by congruence. rewrite HL, Nat.eqb_refl. cbn [bind]. rewrite map_length, LC, Nat.eqb_refl. cbn [bind instantiate_phase].
  unfold instantiate_eB. cbn [map_values eB_loop]. set (idx := where_eq (repeat 0 n) 0).
  assert (I : forall i, In i idx -> (i < n)%nat). { intros i Hi. apply where_eq_in in Hi. rewrite <- (repeat_length 0 n). apply nth_error_Some. congruence. }
  destruct (gather_total (map (fun _ => mzero) (me_ecentroids me)) idx) as [es' Ees]; [intros i Hi; rewrite map_length, LC; auto|].
  destruct (gather_total U idx) as [us Eus]; [intros i Hi; rewrite HL; auto|]. rewrite Ees, Eus. cbn [bind].
  assert (Les : len es' = len us). { apply gather_spec in Ees, Eus. apply Forall2_len in Ees, Eus. congruence. }
  assert (Z : forall e, In e es' -> e = mzero). { intros e He. apply gather_spec in Ees. destruct (Forall2_in_r _ _ _ _ Ees He) as (i & Hi & Ei). apply nth_error_In in Ei. apply in_map_iff in Ei as (? & ? & _). auto. }
  assert (exists Bs, lab_strain_to_B (x_form_b x (ph_cell (make_phase cell sg cif))) es' us = Ok Bs) as (Bs & ->).
  { unfold lab_strain_to_B. rewrite Les, Nat.eqb_refl. set (l := map _ _).
    assert (ZL : forall e, In e l -> e = mzero). { intros e He. apply in_map_iff in He as ([a u] & <- & Hin). apply in_combine_l in Hin. cbn [fst snd]. rewrite (Z a Hin). apply crystal_zero. }
    pose proof (pC20_zero_strain (x_form_b x (ph_cell (make_phase cell sg cif))) mI) as P. unfold lab_strain_to_B in P. cbn [List.length Nat.eqb combine map fst snd] in P. rewrite crystal_zero in P. unfold epsilon_to_b in *. cbn [forallb traverse List.length] in P.
    destruct (no_negative_eig (metric mzero)) eqn:NE; cbn [andb] in P; [|discriminate]. destruct (eps_to_B1 _ mzero) as [B1|] eqn:EB; [|discriminate].
    replace (forallb _ l) with true by (symmetry; apply forallb_forall; intros e He; now rewrite (ZL e He)).
    apply traverse_ok. intros e He. rewrite (ZL e He). eauto. }
  cbn [bind]. eexists. reflexivity.
Qed.
(** One regular corner tetrahedron as the generator's answer, uniform density. *)
Lemma xC76_sample : exists p, polycrystal_from_odf (ex_xtal []) first_gen (fun _ _ _ => (ex_coord, ex_enod)) (fun _ _ => / (PI * PI)) 1 1 1 [] "" None (PI / 4) (fun _ => mzero) = Ok p.
Proof.
  assert (exists me, build_mesh ex_coord ex_enod = Ok me) as (me & B).
  { destruct ex_mesh as (me & B & _). eauto. }
  pose proof PI_RGT_0 as P. assert (C : odf_count (PI / 4) = 4%nat) by (apply count_of; [lra|]; replace (PI / (PI / 4)) with 4 by (field; lra); cbn [INR]; lra).
  assert (C7 : INR (odf_count (PI / 4)) < 10^7) by (rewrite C; cbn [INR]; lra). assert (S : 0 < PI / 4 <= PI) by lra.
  eapply pC76_succeeds; [lia|reflexivity|exact B|auto|auto|]. intros c _. destruct (pC57_uniform_accepted first_gen (PI / 4) [c] S C7) as (ms & E). apply (pC58_accepted_means first_gen (fun _ _ => / (PI * PI)) (PI / 4) [c] ms); auto. now left.
Qed.
