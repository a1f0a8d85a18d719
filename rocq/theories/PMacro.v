(** * Proofs about macro rendering: totals (C47). *)
From Verif Require Import Vec Spec MMotion MLaue MMesh MStrain MBeam MPolycrystal SPolycrystal MDetector SDetector MClip.
From Verif Require Import MRender SRender SMacro PLaue PBeam PScattering PPolycrystal3 PDetector PDetector2 PDetector3 PDetector4 PClip PRender PRender2 PRenderEx PRender3 PKernel2 PKernel3.
Open Scope R_scope.
Local Notation len := List.length.

Lemma sum_pos_of {A} (g : A -> R) l : (forall x, In x l -> 0 <= g x) -> (exists x, In x l /\ 0 < g x) -> 0 < sum_list (map g l).
Proof.
  intros H (x & Hx & Hp). induction l as [|y l IH]; [destruct Hx|]. cbn [map]. rewrite sum_list_cons.
  assert (0 <= sum_list (map g l)).
  { clear - H. induction l; cbn [map]; [rewrite sum_list_nil; lra|]. rewrite sum_list_cons. pose proof (H a (or_intror (or_introl eq_refl))).
    assert (0 <= sum_list (map g l)) by (apply IHl; intros z [<-|Hz]; apply H; [now left|right; now right]). lra. }
  destruct Hx as [->|Hx].
  - lra.
  - pose proof (H y (or_introl eq_refl)). assert (0 < sum_list (map g l)) by (apply IH; auto; intros; apply H; now right). lra.
Qed.
Lemma sum_zero_of {A} (g : A -> R) l : (forall x, In x l -> g x = 0) -> sum_list (map g l) = 0.
Proof. intros H. induction l; cbn [map]; [apply sum_list_nil|]. rewrite sum_list_cons, H by now left. rewrite IHl by (intros; apply H; now right). ring. Qed.
(** Normalised lengths times the volume. *)
Lemma shares {A} z (len' : A -> R) cells V : let T := sum_list (map len' cells) in
  (0 < T -> (forall c, nmul (ndiv z (Fin (len' c)) (Fin T)) (Fin V) = Fin (len' c / T * V)) /\
            nsum (map (fun c => nmul (ndiv z (Fin (len' c)) (Fin T)) (Fin V)) cells) = Fin V) /\
  (T = 0 -> (forall c, In c cells -> len' c = 0) -> forall c, In c cells -> nmul (ndiv z (Fin (len' c)) (Fin T)) (Fin V) = NaN).
Proof.
  cbv zeta. set (T := sum_list _). split.
  - intros HT. assert (E : forall c, nmul (ndiv z (Fin (len' c)) (Fin T)) (Fin V) = Fin (len' c / T * V)) by (intros; rewrite ndiv_fin by lra; reflexivity).
    split; auto. rewrite (nsum_fin_map _ (fun c => (V / T) * len' c)) by (intros; rewrite E; f_equal; field; lra).
    rewrite sum_list_map_scal. fold T. f_equal. field. lra.
  - intros HT H0 c Hc. rewrite H0, HT by auto. unfold ndiv. cbn. destruct (Req_EM_T 0 0); [|lra]. destruct (Rlt_dec 0 0); [lra|]. reflexivity.
Qed.
Lemma sum_single_seq (x : nat) (v : R) n : forall s, (s <= x < s + n)%nat ->
  sum_list (map (fun k => if Nat.eqb x k then v else 0) (seq s n)) = v.
Proof.
  induction n as [|n IH]; intros s H; [lia|]. cbn [seq map]. rewrite sum_list_cons. destruct (Nat.eqb_spec x s).
  - rewrite sum_zero_of; [lra|]. intros k Hk. apply in_seq in Hk. destruct (Nat.eqb_spec x k); auto; lia.
  - rewrite IH by lia. lra.
Qed.
Lemma cells_total rows cols (cl : list ((nat * nat) * R)) : (forall c, In c cl -> (fst (fst c) < rows)%nat /\ (snd (fst c) < cols)%nat) ->
  sum_list (map (fun ab => sum_list (map snd (filter (fun c => Nat.eqb (fst (fst c)) (fst ab) && Nat.eqb (snd (fst c)) (snd ab)) cl)))
    (list_prod (seq 0 rows) (seq 0 cols))) = sum_list (map snd cl).
Proof.
  intros H. induction cl as [|[[i j] v] cl IH]; cbn [filter map].
  - apply sum_zero_of. intros. apply sum_list_nil.
  - destruct (H _ (or_introl eq_refl)) as [Hi Hj]. cbn [fst snd] in *. rewrite sum_list_cons. rewrite <- IH by (intros; apply H; now right).
    transitivity (sum_list (map (fun ab : nat * nat => (if Nat.eqb i (fst ab) && Nat.eqb j (snd ab) then v else 0) + 
       sum_list (map snd (filter (fun c => Nat.eqb (fst (fst c)) (fst ab) && Nat.eqb (snd (fst c)) (snd ab)) cl))) (list_prod (seq 0 rows) (seq 0 cols)))).
    + apply sum_list_ext. intros ab _. destruct (Nat.eqb i (fst ab) && Nat.eqb j (snd ab))%bool; cbn [map snd]; rewrite ?sum_list_cons; lra.
    + rewrite sum_list_plus_map. f_equal. rewrite (sum_list_prod (fun a b => if Nat.eqb i a && Nat.eqb j b then v else 0)).
      transitivity (sum_list (map (fun a => if Nat.eqb i a then v else 0) (seq 0 rows))); [|apply sum_single_seq; lia]. apply sum_list_ext. intros a _. destruct (Nat.eqb i a); cbn [andb].
      * apply sum_single_seq. lia.
      * apply sum_zero_of. auto.
Qed.
Lemma traverse_in {A B} (f : A -> result B) l l' : traverse f l = Ok l' -> forall y, In y l' -> exists x, In x l /\ f x = Ok y.
Proof.
  revert l'. induction l as [|x l IH]; intros l' H y Hy; cbn [traverse] in H.
  - inversion H; subst. destruct Hy.
  - destruct (f x) as [b|] eqn:E; [|discriminate]. cbn [bind] in H. destruct (traverse f l) as [bs|] eqn:E2; [|discriminate]. cbn [bind] in H.
    inversion H; subst. destruct Hy as [<-|Hy]; [exists x; split; auto; now left|]. destruct (IH _ eq_refl y Hy) as (u & Hu & Hf). exists u. split; auto. now right.
Qed.
Lemma traverse_len {A B} (f : A -> result B) l l' : traverse f l = Ok l' -> len l' = len l.
Proof.
  revert l'. induction l as [|x l IH]; intros l' H; cbn [traverse] in H.
  - now inversion H.
  - destruct (f x) as [b|]; [|discriminate]. cbn [bind] in H. destruct (traverse f l) as [bs|] eqn:E2; [|discriminate]. cbn [bind] in H. inversion H; subst. cbn. f_equal. auto.
Qed.
Lemma sample_cell_range z d dir r0 c0 rows cols p ij : sample_cell z d dir r0 c0 rows cols p = Ok ij -> (fst ij < rows)%nat /\ (snd ij < cols)%nat.
Proof.
  unfold sample_cell. destruct (get_intersection _ _ _ _) as [[zd yd] a]. unfold sample_index.
  destruct zd as [zd| | |]; cbn [bind]; try discriminate. destruct (wrap rows _) as [i|] eqn:E1; cbn [bind]; try discriminate.
  destruct yd as [yd| | |]; cbn [bind]; try discriminate. destruct (wrap cols _) as [j|] eqn:E2; cbn [bind]; try discriminate.
  intros H; inversion H; subst. cbn. apply wrap_lt in E1, E2. auto.
Qed.
Lemma map_snd_combine {A B} (l : list A) (m : list B) : len l = len m -> map snd (combine l m) = m.
Proof. revert m. induction l; intros [|b m] H; cbn in *; try lia; auto. f_equal. apply IHl. lia. Qed.

(** The entries of a projected lit part. *)
Lemma project_hull_spec e d pd k r hl r0 r1 c0 c1 pr :
  project_hull (re_z e) d hl (kout_of pd r) (r0, r1, c0, c1) (re_sample e k) = Ok pr -> (0 <= r0 < r1)%Z -> (0 <= c0 < c1)%Z ->
  let cells := list_prod (seq 0 (Z.to_nat (r1 - r0))) (seq 0 (Z.to_nat (c1 - c0))) in
  ((((r1 - r0) * (c1 - c0))%Z = 1%Z \/ some_ray_hits e d pd k r hl r0 r1 c0 c1) ->
     (forall ab, In ab cells -> is_finite (pr (fst ab) (snd ab)) = true) /\
     nsum (map (fun ab => pr (fst ab) (snd ab)) cells) = Fin (h_volume hl)) /\
  (((r1 - r0) * (c1 - c0))%Z <> 1%Z -> ~ some_ray_hits e d pd k r hl r0 r1 c0 c1 ->
     forall ab, In ab cells -> pr (fst ab) (snd ab) = NaN).
Proof.
  intros H Hr Hc. cbv zeta. unfold project_hull in H. cbv zeta in H. fold (ray_dir pd r) in H.
  set (n := ((r1 - r0) * (c1 - c0))%Z) in *. assert (Hn : (1 <= n)%Z) by (unfold n; nia).
  unfold some_ray_hits, ray_points. cbv zeta. fold n.
  destruct (Z.eqb_spec n 1) as [E1|E1].
  { inversion H; subst pr; clear H. split; [|congruence]. intros _.
    assert (r1 - r0 = 1 /\ c1 - c0 = 1)%Z as [A B].
    { unfold n in E1. apply Z.mul_eq_1 in E1 as Q. destruct Q; [|lia]. split; auto. rewrite H in E1. lia. }
    rewrite A, B. change (Z.to_nat 1) with 1%nat. cbn [seq list_prod map app]. split.
    - intros ab _. reflexivity.
    - rewrite nsum_cons, nsum_nil. unfold nadd. f_equal. ring. }
  destruct (Z.leb_spec n 4) as [E4|E4].
  - unfold project_sample_driven in H. set (S := re_sample e k hl (7 * Z.to_nat n)) in *.
    destruct (traverse _ S) as [cs|] eqn:ET; [|discriminate]. cbn [bind] in H. inversion H; subst pr; clear H.
    set (ls := clip_lengths S (ray_dir pd r) (hull_planes (h_eqs hl))) in *.
    set (cells := list_prod _ _). set (cl := combine cs ls).
    set (f := fun ab : nat * nat => sum_list (map snd (filter (fun c : nat * nat * R => Nat.eqb (fst (fst c)) (fst ab) && Nat.eqb (snd (fst c)) (snd ab)) cl))).
    assert (Hrange : forall c, In c cl -> (fst (fst c) < Z.to_nat (r1 - r0))%nat /\ (snd (fst c) < Z.to_nat (c1 - c0))%nat).
    { intros [ij v] Hin. apply in_combine_l in Hin. destruct (traverse_in _ _ _ ET _ Hin) as (p & _ & Hp). eapply sample_cell_range; eauto. }
    assert (HT : sum_list (map f cells) = sum_list ls).
    { unfold f, cells. rewrite cells_total by exact Hrange. unfold cl. rewrite map_snd_combine; auto.
      rewrite (traverse_len _ _ _ ET). unfold ls, clip_lengths. now rewrite map_length. }
    assert (Hls : forall x, In x ls -> 0 <= x).
    { intros x Hx. unfold ls, clip_lengths in Hx. apply in_map_iff in Hx as (p & <- & _). apply pC48_nonnegative. }
    destruct (shares (re_z e) f cells (h_volume hl)) as [S1 S2].
    split.
    + intros [?|(p & Hp & Hpos)]; [contradiction|].
      assert (T : 0 < sum_list (map f cells)).
      { rewrite HT. rewrite <- (map_id ls). apply sum_pos_of; auto. exists (clip_length p (ray_dir pd r) (hull_planes (h_eqs hl))). split; auto.
        unfold ls, clip_lengths. apply in_map_iff. eauto. }
      destruct (S1 T) as [Q1 Q2]. split; [|exact Q2]. intros ab _. change (is_finite (nmul (ndiv (re_z e) (Fin (f ab)) (Fin (sum_list (map f cells)))) (Fin (h_volume hl))) = true).
      now rewrite Q1.
    + intros _ Hno ab Hab. change (nmul (ndiv (re_z e) (Fin (f ab)) (Fin (sum_list (map f cells)))) (Fin (h_volume hl)) = NaN).
      assert (Z0 : forall x, In x ls -> x = 0).
      { intros x Hx. pose proof (Hls x Hx). destruct (Rle_lt_or_eq_dec _ _ H); auto. exfalso. apply Hno. unfold ls, clip_lengths in Hx.
        apply in_map_iff in Hx as (p & Ep & Hp). exists p. split; auto. now rewrite Ep. }
      apply S2; auto.
      * rewrite HT, <- (map_id ls). apply sum_zero_of. auto.
      * intros c _. unfold f. apply sum_zero_of. intros x Hx. apply filter_In in Hx as [Hx _]. destruct x as [ij v]. apply in_combine_r in Hx. cbn. auto.
  - inversion H; subst pr; clear H. unfold project_detector_driven. cbv zeta.
    set (cells := list_prod _ _).
    set (f := fun ab : nat * nat => match pixel_coordinate d (Z.to_nat r0 + fst ab) (Z.to_nat c0 + snd ab) with
                 | NV (Fin x) (Fin y) (Fin w) => clip_length (V3 x y w) (ray_dir pd r) (hull_planes (h_eqs hl)) | _ => 0 end).
    assert (F0 : forall ab, 0 <= f ab).
    { intros ab. unfold f. destruct (pixel_coordinate _ _ _) as [[x| | |] [y| | |] [w| | |]]; try lra. apply pC48_nonnegative. }
    destruct (shares (re_z e) f cells (h_volume hl)) as [S1 S2].
    split.
    + intros [?|(p & (i & j & (Hi & Hj) & Hp) & Hpos)]; [contradiction|].
      assert (T : 0 < sum_list (map f cells)).
      { apply sum_pos_of; auto. exists (i - Z.to_nat r0, j - Z.to_nat c0)%nat. split.
        - apply in_prod; apply in_seq; lia.
        - unfold f. cbn [fst snd]. replace (Z.to_nat r0 + (i - Z.to_nat r0))%nat with i by lia. replace (Z.to_nat c0 + (j - Z.to_nat c0))%nat with j by lia.
          rewrite Hp. unfold nfin. destruct p. exact Hpos. }
      destruct (S1 T) as [Q1 Q2]. split; [|exact Q2]. intros ab _. change (is_finite (nmul (ndiv (re_z e) (Fin (f ab)) (Fin (sum_list (map f cells)))) (Fin (h_volume hl))) = true).
      now rewrite Q1.
    + intros _ Hno ab Hab. change (nmul (ndiv (re_z e) (Fin (f ab)) (Fin (sum_list (map f cells)))) (Fin (h_volume hl)) = NaN).
      assert (Z0 : forall c, In c cells -> f c = 0).
      { intros [a b] Hcc. apply in_prod_iff in Hcc as [A B]. apply in_seq in A, B.
        destruct (Rle_lt_or_eq_dec _ _ (F0 (a, b))) as [P|]; auto. exfalso. apply Hno.
        unfold f in P. cbn [fst snd] in P. destruct (pixel_coordinate _ _ _) as [[x| | |] [y| | |] [w| | |]] eqn:E; try lra.
        exists (V3 x y w). split; auto. exists (Z.to_nat r0 + a)%nat, (Z.to_nat c0 + b)%nat. split; [|exact E]. split; lia. }
      apply S2; auto. apply sum_zero_of. auto.
Qed.

Lemma macro_reads z d pd frames out r : fresh pd -> (1 <= frames)%Z -> project z d pd frames = Ok out -> In r (pd_peaks out) ->
  read out r "grain_index" = fcol r 0 /\ read out r "diffraction_times" = fcol r 6 /\ kout_of out r = fvec r 13.
Proof.
  intros Hf Hn Ho Hin. pose proof (out_columns _ _ _ _ _ Hf Ho) as Hc.
  destruct (projected_prow _ _ _ _ _ _ Hf Hn Ho Hin) as (k & zd & yd & i & P). pose proof (pr_len _ _ _ _ _ _ _ P) as Hl.
  split; [apply read_col; [rewrite Hc; reflexivity|lia]|]. split; [apply read_col; [rewrite Hc; reflexivity|lia]|].
  unfold kout_of, fvec. f_equal; apply read_col; try lia; rewrite Hc; reflexivity.
Qed.
Definition box_deposits (d : detector) (f r0 c0 : Z) (rows cols : nat) (i : R) (pr : box_matrix) : list deposit :=
  map (fun ab => (f, (r0 + Z.of_nat (fst ab))%Z, (c0 + Z.of_nat (snd ab))%Z,
                  nmul (Fin i) (nmul (nmul (pr (fst ab) (snd ab)) (Fin (d_pz d))) (Fin (d_py d))))) (list_prod (seq 0 rows) (seq 0 cols)).
(** What a row deposits: nothing, or its box. *)
Lemma macro_row_shape e d pd frames out k r ds : fresh pd -> (1 <= frames)%Z -> project (re_z e) d pd frames = Ok out -> In r (pd_peaks out) ->
  macro_deposits e d (pd_beam out) (pd_mesh out) (pd_motion out) k r = Ok ds ->
  ds = [] \/ exists hl r0 r1 c0 c1 pr, lit_part e out r hl /\ footprint e d out r hl r0 r1 c0 c1 /\
    project_hull (re_z e) d hl (kout_of out r) (r0, r1, c0, c1) (re_sample e k) = Ok pr /\
    ds = box_deposits d (ztrunc (fcol r 28)) r0 c0 (Z.to_nat (r1 - r0)) (Z.to_nat (c1 - c0)) (fcol r 29) pr.
Proof.
  intros Hf Hn Ho Hin H. destruct (macro_reads _ _ _ _ _ _ Hf Hn Ho Hin) as (R0 & R6 & RK).
  destruct (projected_prow _ _ _ _ _ _ Hf Hn Ho Hin) as (f & zd & yd & i & P). pose proof (pr_i _ _ _ _ _ _ _ P) as Hi.
  unfold macro_deposits in H. destruct (nth_error _ _) as [el|] eqn:E1; [|discriminate].
  destruct (gather_tet _ _) as [t|] eqn:E2; [|discriminate]. cbn [bind] in H. cbv zeta in H.
  set (vs := map (move_at (pd_motion out) (fcol r 6)) (tet_list t)) in *.
  destruct (beam_intersect _ _ _ _ _) as [it|] eqn:E3; [|discriminate]. cbn [bind] in H.
  assert (EC : element_corners out r vs) by (exists el, t; rewrite R0, R6; auto).
  assert (C : ds = [] \/ (it <> NoIntersection /\ 
     (let* hl := re_hull e vs it in match projected_box (re_z e) d (h_corners hl) (fvec r 13) with
          | None => Ok []
          | Some (r0, r1, c0, c1) =>
              let* pr := project_hull (re_z e) d hl (fvec r 13) (r0, r1, c0, c1) (re_sample e k) in
              match ncol r 29 with
              | Fin i =>
                  Ok (map (fun ab => (ztrunc (fcol r 28), (r0 + Z.of_nat (fst ab))%Z, (c0 + Z.of_nat (snd ab))%Z,
                        nmul (Fin i) (nmul (nmul (pr (fst ab) (snd ab)) (Fin (d_pz d))) (Fin (d_py d)))))
                     (list_prod (seq 0 (Z.to_nat (r1 - r0))) (seq 0 (Z.to_nat (c1 - c0)))))
              | _ => Ok []
              end
          end) = Ok ds)).
  { destruct it; [right|right|left]; [split; [discriminate|exact H]|split; [discriminate|exact H]|now inversion H]. }
  clear H. destruct C as [->|[Hne H]]; [now left|].
  destruct (re_hull e vs it) as [hl|] eqn:E4; [|discriminate]. cbn [bind] in H.
  destruct (projected_box _ _ _ _) as [[[[r0 r1] c0] c1]|] eqn:E5; [|inversion H; auto].
  destruct (project_hull _ _ _ _ _ _) as [pr|] eqn:E6; [|discriminate]. cbn [bind] in H. rewrite Hi in H. inversion H; subst ds; clear H.
  right. exists hl, r0, r1, c0, c1, pr. unfold footprint. rewrite RK. repeat split; auto.
  - exists vs, it. auto.
  - unfold box_deposits. replace (fcol r 29) with i by (unfold fcol; now rewrite Hi). reflexivity.
Qed.
Lemma lit_part_det e pd r hl hl' : lit_part e pd r hl -> lit_part e pd r hl' -> hl = hl'.
Proof.
  intros (vs & it & (el & t & A1 & A2 & A3) & B & _ & C) (vs' & it' & (el' & t' & A1' & A2' & A3') & B' & _ & C').
  rewrite A1 in A1'. inversion A1'; subst el'. rewrite A2 in A2'. inversion A2'; subst t'. subst vs vs'.
  rewrite B in B'. inversion B'; subst it'. rewrite C in C'. now inversion C'.
Qed.
(** A row whose lit part has a footprint deposits on exactly that footprint. *)
Lemma macro_row_lit e d pd frames out k r ds hl r0 r1 c0 c1 : fresh pd -> (1 <= frames)%Z -> project (re_z e) d pd frames = Ok out -> In r (pd_peaks out) ->
  macro_deposits e d (pd_beam out) (pd_mesh out) (pd_motion out) k r = Ok ds ->
  lit_part e out r hl -> footprint e d out r hl r0 r1 c0 c1 ->
  exists pr, project_hull (re_z e) d hl (kout_of out r) (r0, r1, c0, c1) (re_sample e k) = Ok pr /\
    ds = box_deposits d (ztrunc (fcol r 28)) r0 c0 (Z.to_nat (r1 - r0)) (Z.to_nat (c1 - c0)) (fcol r 29) pr.
Proof.
  intros Hf Hn Ho Hin H (vs & it & EC & B & Hne & Hh) Hfp. destruct (macro_reads _ _ _ _ _ _ Hf Hn Ho Hin) as (R0 & R6 & RK).
  destruct (projected_prow _ _ _ _ _ _ Hf Hn Ho Hin) as (f & zd & yd & i & P). pose proof (pr_i _ _ _ _ _ _ _ P) as Hi.
  destruct EC as (el & t & A1 & A2 & A3). rewrite R0 in A1. rewrite R6 in A3. unfold footprint in Hfp. rewrite RK in *.
  unfold macro_deposits in H. rewrite A1, A2 in H. cbn [bind] in H. cbv zeta in H. rewrite <- A3, B in H. cbn [bind] in H.
  assert (G : (let* hl := re_hull e vs it in match projected_box (re_z e) d (h_corners hl) (fvec r 13) with
          | None => Ok []
          | Some (r0, r1, c0, c1) =>
              let* pr := project_hull (re_z e) d hl (fvec r 13) (r0, r1, c0, c1) (re_sample e k) in
              match ncol r 29 with
              | Fin i =>
                  Ok (map (fun ab => (ztrunc (fcol r 28), (r0 + Z.of_nat (fst ab))%Z, (c0 + Z.of_nat (snd ab))%Z,
                        nmul (Fin i) (nmul (nmul (pr (fst ab) (snd ab)) (Fin (d_pz d))) (Fin (d_py d)))))
                     (list_prod (seq 0 (Z.to_nat (r1 - r0))) (seq 0 (Z.to_nat (c1 - c0)))))
              | _ => Ok []
              end
          end) = Ok ds) by (destruct it; [exact H|exact H|contradiction]).
  clear H. rewrite Hh in G. cbn [bind] in G. rewrite Hfp in G.
  destruct (project_hull _ _ _ _ _ _) as [pr|] eqn:E6; [|discriminate]. cbn [bind] in G. rewrite Hi in G. inversion G; subst ds; clear G.
  exists pr. split; auto. unfold box_deposits. replace (fcol r 29) with i by (unfold fcol; now rewrite Hi). reflexivity.
Qed.
Lemma macro_inv e d pd frames ml mi im out : render e d pd frames "macro" ml mi = Ok (im, out) ->
  project (re_z e) d pd (nframes frames) = Ok out /\
  macro_method e d out (pd_peaks out) (Z.to_nat (nframes frames)) = Ok im.
Proof.
  unfold render. cbv zeta. fold (nframes frames). destruct (project _ _ _ _) as [o|]; [|discriminate]. cbn [bind String.eqb Ascii.eqb Bool.eqb].
  destruct (macro_method _ _ _ _ _) as [i|] eqn:E; [|discriminate]. cbn [bind]. intros H; inversion H; subst. auto.
Qed.
Lemma box_total d f r0 c0 rows cols i pr V : (forall ab, In ab (list_prod (seq 0 rows) (seq 0 cols)) -> is_finite (pr (fst ab) (snd ab)) = true) ->
  nsum (map (fun ab => pr (fst ab) (snd ab)) (list_prod (seq 0 rows) (seq 0 cols))) = Fin V ->
  nsum (map dep_val (box_deposits d f r0 c0 rows cols i pr)) = Fin (i * V * (d_pz d * d_py d)).
Proof.
  intros Hfin HV. unfold box_deposits. rewrite map_map. unfold dep_val. cbn [snd]. set (cells := list_prod _ _) in *.
  assert (E : forall ab, In ab cells -> pr (fst ab) (snd ab) = Fin (fval (pr (fst ab) (snd ab)))).
  { intros ab Hab. specialize (Hfin ab Hab). destruct (pr (fst ab) (snd ab)); try discriminate. reflexivity. }
  rewrite (nsum_fin_map _ (fun ab => (i * (d_pz d * d_py d)) * fval (pr (fst ab) (snd ab)))).
  - rewrite sum_list_map_scal. rewrite (nsum_fin_map _ (fun ab => fval (pr (fst ab) (snd ab)))) in HV by exact E. inversion HV. f_equal. ring.
  - intros ab Hab. rewrite (E ab Hab) at 1. cbn [nmul]. f_equal. ring.
Qed.
Lemma traverse_F2 {A B} (f : A -> result B) l l' : traverse f l = Ok l' -> Forall2 (fun x y => f x = Ok y) l l'.
Proof.
  revert l'. induction l as [|x l IH]; intros l' H; cbn [traverse] in H.
  - inversion H. constructor.
  - destruct (f x) as [b|] eqn:E; [|discriminate]. cbn [bind] in H. destruct (traverse f l) as [bs|] eqn:E2; [|discriminate]. cbn [bind] in H. inversion H; subst. constructor; auto.
Qed.
Lemma numbered_nth {A} (l : list A) k r : In (k, r) (numbered l) <-> nth_error l k = Some r.
Proof.
  unfold numbered. assert (G : forall s, In (k, r) (combine (seq s (len l)) l) <-> (s <= k)%nat /\ nth_error l (k - s) = Some r).
  { induction l as [|a l IH]; intros s; cbn [List.length seq combine In].
    - split; [intros []|]. intros [_ H]. destruct (k - s)%nat; discriminate.
    - rewrite IH. split.
      + intros [H|[H1 H2]]; [inversion H; subst; split; [lia|]; now rewrite Nat.sub_diag|]. split; [lia|].
        replace (k - s)%nat with (S (k - S s)) by lia. exact H2.
      + intros [H1 H2]. destruct (k - s)%nat as [|m] eqn:E; [left; cbn in H2; inversion H2; f_equal; lia|right]. split; [lia|].
        cbn in H2. now replace (k - S s)%nat with m by lia. }
  rewrite G, Nat.sub_0_r. split; [tauto|]. intros; split; auto; lia.
Qed.
(** The image before the point-spread function. *)
Lemma macro_raw e d pd frames ml mi im out : fresh pd -> built d -> 0 < d_zmax d -> 0 < d_ymax d ->
  render e d pd frames "macro" ml mi = Ok (im, out) -> pd_peaks out <> [] ->
  exists psf deps, psf_kernel d = Ok psf /\
    Forall2 (fun kr ds => macro_deposits e d (pd_beam out) (pd_mesh out) (pd_motion out) (fst kr) (snd kr) = Ok ds) (numbered (pd_peaks out)) deps /\
    Forall (dep_in (f_n im) (d_nz d) (d_ny d)) (List.concat deps) /\ f_n im = Z.to_nat (nframes frames) /\ f_h im = d_nz d /\ f_w im = d_ny d /\
    forall f, (exists r, In r (pd_peaks out) /\ read out r "frame" = INR f) -> forall i j,
      f_at im f i j = f_at (conv3 psf (Fr (f_n im) (d_nz d) (d_ny d) (fun f i j => nsum (map (fun dp => if hit f i j dp then snd dp else Fin 0) (List.concat deps))))) f i j.
Proof.
  intros Hf Hb Pz Py H Hne. destruct (macro_inv _ _ _ _ _ _ _ _ H) as [Ho Hm]. clear H. pose proof (nframes_ge frames) as Hn.
  unfold macro_method, render_macro in Hm. destruct (pd_peaks out) as [|r0 rows] eqn:E; [contradiction|]. rewrite <- E in *.
  destruct (psf_kernel d) as [psf|] eqn:Ek; [|discriminate]. cbn [bind] in Hm.
  destruct (traverse _ (combine _ _)) as [deps|] eqn:Ed; [|discriminate]. cbn [bind] in Hm.
  destruct (traverse _ (pd_peaks out)) as [us|] eqn:Eu; [|discriminate]. cbn [bind] in Hm.
  destruct (index_put _ _) as [im0|] eqn:Ei; [|discriminate]. cbn [bind] in Hm. inversion Hm; subst im; clear Hm. cbn [f_n f_h f_w f_at].
  apply traverse_F2 in Ed. exists psf, deps. split; auto. split; [exact Ed|].
  assert (Hin : Forall (dep_in (Z.to_nat (nframes frames)) (d_nz d) (d_ny d)) (List.concat deps)).
  { apply Forall_forall. intros dp Hdp. apply in_concat in Hdp as (ds & Hds & Hdp).
    assert (exists k r, nth_error (pd_peaks out) k = Some r /\ macro_deposits e d (pd_beam out) (pd_mesh out) (pd_motion out) k r = Ok ds) as (k & r & Hr & Hd).
    { fold (numbered (pd_peaks out)) in Ed. assert (HN : forall k r, In (k, r) (numbered (pd_peaks out)) -> nth_error (pd_peaks out) k = Some r) by (intros k r; apply numbered_nth).
      clear - Ed Hds HN. revert Ed HN. generalize (numbered (pd_peaks out)). intros L Ed HN.
      induction Ed as [|[k r] ds' l l' Hx _ IH]; [destruct Hds|]. destruct Hds as [->|Hds].
      - exists k, r. split; auto. apply HN. now left.
      - apply IH; auto. intros k' r' Hk. apply HN. now right. }
    apply nth_error_In in Hr. destruct (projected_prow _ _ _ _ _ _ Hf Hn Ho Hr) as (f & zd & yd & i & P).
    destruct (macro_row_shape _ _ _ _ _ _ _ _ Hf Hn Ho Hr Hd) as [->|(hl & b0 & b1 & b2 & b3 & pr & _ & Hfp & _ & ->)]; [destruct Hdp|].
    destruct (pC35_box_inside_complete_pixels _ _ _ _ _ _ _ _ Hb Pz Py Hfp) as (Q1 & Q2 & Q3 & Q4 & _).
    unfold box_deposits in Hdp. apply in_map_iff in Hdp as ([a b] & <- & Hab). apply in_prod_iff in Hab as [A B]. apply in_seq in A, B.
    cbn [fst snd dep_in]. unfold dep_in. unfold fcol. rewrite (pr_frame _ _ _ _ _ _ _ P). cbn [fval]. pose proof (pr_frame_lt _ _ _ _ _ _ _ P).
    rewrite (ztrunc_eq (INR f) (Z.of_nat f)) by (rewrite <- ?INR_IZR_INZ; lra || lia). lia. }
  split; [exact Hin|]. repeat (split; [reflexivity|]).
  intros f (r & Hr & Hrf) i j.
  destruct (out_reads _ _ _ _ _ _ Hf Hn Ho Hr) as (E28 & _). rewrite E28 in Hrf.
  destruct (projected_prow _ _ _ _ _ _ Hf Hn Ho Hr) as (f' & zd & yd & i' & P). unfold fcol in Hrf. pose proof (pr_frame _ _ _ _ _ _ _ P) as Pf. rewrite Pf in Hrf. cbn [fval] in Hrf. apply INR_eq in Hrf. subst f'.
  pose proof (pr_frame_lt _ _ _ _ _ _ _ P) as Plt.
  match goal with |- (if existsb ?p ?l then _ else _) = _ => assert (X : existsb p l = true) end.
  { apply existsb_exists. exists r. split; auto. unfold fcol. rewrite Pf. cbn [fval].
    rewrite (ztrunc_eq (INR f) (Z.of_nat f)) by (rewrite <- ?INR_IZR_INZ; lra || lia).
    rewrite wrap_in by lia. apply Nat.eqb_eq. now rewrite Nat2Z.id. }
  rewrite X. rewrite (index_put_zeros _ _ _ _ Hin) in Ei. inversion Ei; subst im0. reflexivity.
Qed.
Lemma nsum_finite {A} (g : A -> num) l : (forall x, In x l -> is_finite (g x) = true) -> is_finite (nsum (map g l)) = true.
Proof.
  intros H. rewrite (nsum_fin_map g (fun x => fval (g x))); [reflexivity|]. intros x Hx. specialize (H x Hx). destruct (g x); try discriminate. reflexivity.
Qed.
Lemma nsum_nonzero {A} (g : A -> num) l : nsum (map g l) <> Fin 0 -> exists x, In x l /\ g x <> Fin 0.
Proof.
  induction l as [|x l IH]; cbn [map]; [intros H; exfalso; apply H; reflexivity|]. rewrite nsum_cons. intros H.
  destruct (g x) as [q| | |] eqn:E; try (exists x; split; [now left|rewrite E; discriminate]).
  destruct (Req_dec q 0) as [->|Hq].
  - rewrite nadd_0_l in H. destruct (IH H) as (y & Hy & Hg). exists y. split; auto. now right.
  - exists x. split; [now left|]. rewrite E. intros C. inversion C. contradiction.
Qed.
(** Total of a macro frame whose peaks are all lit, cross at least one ray and keep
    away from the border: the intensity factor times the lit volume of every peak,
    times an additional factor, the area of one pixel. *)
Lemma pC47_macro_frame_total : forall e d pd frames ml mi im out f vol, fresh pd -> built d -> 0 < d_zmax d -> 0 < d_ymax d ->
  d_sigma d <> 0 -> (0 <= d_max_radius d)%Z ->
  render e d pd frames "macro" ml mi = Ok (im, out) ->
  (exists r, In r (pd_peaks out) /\ read out r "frame" = INR f) ->
  (forall k r, nth_error (pd_peaks out) k = Some r -> read out r "frame" = INR f ->
     exists hl r0 r1 c0 c1, lit_part e out r hl /\ h_volume hl = vol k /\ footprint e d out r hl r0 r1 c0 c1 /\
       away_from_border (psf_radius d) d r0 r1 c0 c1 /\
       (((r1 - r0) * (c1 - c0))%Z = 1%Z \/ some_ray_hits e d out k r hl r0 r1 c0 c1)) ->
  frame_total im f = Fin (sum_list (map (fun kr =>
      if Reqb (read out (snd kr) "frame") (INR f) then read out (snd kr) "intensity_factors" * vol (fst kr) * (d_pz d * d_py d) else 0)
    (numbered (pd_peaks out)))).
Proof.
  intros e d pd frames ml mi im out f vol Hf Hb Pz Py Hs Hm H Hex Hall.
  assert (Hne : pd_peaks out <> []) by (destruct Hex as (r & Hr & _); intros C; rewrite C in Hr; destruct Hr).
  destruct (macro_inv _ _ _ _ _ _ _ _ H) as [Ho _]. pose proof (nframes_ge frames) as Hn.
  destruct (macro_raw _ _ _ _ _ _ _ _ Hf Hb Pz Py H Hne) as (psf & deps & Hk & HF & Hin & En & Eh & Ew & Hat).
  specialize (Hat f Hex). set (raw := Fr _ _ _ _) in Hat.
  pose proof (psf_radius_nonneg d Hm) as Hrad.
  (* every row's deposits *)
  assert (R : forall kr ds, In kr (numbered (pd_peaks out)) -> macro_deposits e d (pd_beam out) (pd_mesh out) (pd_motion out) (fst kr) (snd kr) = Ok ds ->
    nsum (map (fun dp => if in_frame f dp then snd dp else Fin 0) ds) =
      Fin (if Reqb (read out (snd kr) "frame") (INR f) then read out (snd kr) "intensity_factors" * vol (fst kr) * (d_pz d * d_py d) else 0) /\
    forall dp, In dp ds -> in_frame f dp = true -> is_finite (snd dp) = true /\
      (psf_radius d <= dep_row dp /\ dep_row dp + psf_radius d < Z.of_nat (d_nz d) /\ psf_radius d <= dep_col dp /\ dep_col dp + psf_radius d < Z.of_nat (d_ny d))%Z).
  { intros [k r] ds Hkr Hd. cbn [fst snd] in *. apply numbered_nth in Hkr as Hnth. pose proof (nth_error_In _ _ Hnth) as Hr.
    destruct (out_reads _ _ _ _ _ _ Hf Hn Ho Hr) as (E28 & _ & _ & E29 & _).
    destruct (projected_prow _ _ _ _ _ _ Hf Hn Ho Hr) as (f' & zd & yd & i' & P). pose proof (pr_frame _ _ _ _ _ _ _ P) as Pf. 
    assert (E28' : fcol r 28 = INR f') by (unfold fcol; now rewrite Pf).
    assert (Et : ztrunc (fcol r 28) = Z.of_nat f') by (rewrite E28'; apply ztrunc_eq; [lia|rewrite <- ?INR_IZR_INZ; lra]).
    rewrite E28, E28'. destruct (Nat.eq_dec f' f) as [->|Hff].
    - replace (Reqb (INR f) (INR f)) with true by (symmetry; now apply Reqb_true).
      rewrite E28' in E28. destruct (Hall k r Hnth E28) as (hl & r0 & r1 & c0 & c1 & Hlit & Hvol & Hfp & (W1 & W2 & W3 & W4 & W5 & W6) & Hray).
      destruct (macro_row_lit _ _ _ _ _ _ _ _ _ _ _ _ _ Hf Hn Ho Hr Hd Hlit Hfp) as (pr & Hpr & ->).
      destruct (project_hull_spec _ _ _ _ _ _ _ _ _ _ _ Hpr) as [T _]; try lia. destruct (T Hray) as [T1 T2].
      assert (Din : forall dp, In dp (box_deposits d (ztrunc (fcol r 28)) r0 c0 (Z.to_nat (r1 - r0)) (Z.to_nat (c1 - c0)) (fcol r 29) pr) -> in_frame f dp = true).
      { intros dp Hdp. unfold box_deposits in Hdp. apply in_map_iff in Hdp as (ab & <- & _). unfold in_frame. rewrite Et. apply Z.eqb_refl. }
      split.
      + rewrite (nsum_ext _ dep_val) by (intros dp Hdp; rewrite Din by exact Hdp; reflexivity).
        rewrite (box_total d _ r0 c0 _ _ (fcol r 29) pr _ T1 T2). f_equal. rewrite E29, Hvol. ring.
      + intros dp Hdp _. unfold box_deposits in Hdp. apply in_map_iff in Hdp as ([a b] & <- & Hab). pose proof (T1 _ Hab) as Hfin.
        apply in_prod_iff in Hab as [A B]. apply in_seq in A, B. unfold dep_row, dep_col. cbn [fst snd] in *. split; [|lia].
        destruct (pr a b); try discriminate. reflexivity.
    - replace (Reqb (INR f') (INR f)) with false by (symmetry; apply Reqb_false; intros C; apply INR_eq in C; contradiction).
      assert (Dout : forall dp, In dp ds -> in_frame f dp = false).
      { intros dp Hdp. destruct (macro_row_shape _ _ _ _ _ _ _ _ Hf Hn Ho Hr Hd) as [->|(hl & b0 & b1 & b2 & b3 & pr & _ & _ & _ & ->)]; [destruct Hdp|].
        unfold box_deposits in Hdp. apply in_map_iff in Hdp as (ab & <- & _). unfold in_frame. rewrite Et. apply Z.eqb_neq. lia. }
      split.
      + apply nsum_zero. intros dp Hdp. now rewrite Dout.
      + intros dp Hdp C. rewrite Dout in C by exact Hdp. discriminate. }
  (* deposits in the frame are finite and away from the border *)
  assert (R2 : forall dp, In dp (List.concat deps) -> in_frame f dp = true -> is_finite (snd dp) = true /\
      (psf_radius d <= dep_row dp /\ dep_row dp + psf_radius d < Z.of_nat (d_nz d) /\ psf_radius d <= dep_col dp /\ dep_col dp + psf_radius d < Z.of_nat (d_ny d))%Z).
  { intros dp Hdp Hif. apply in_concat in Hdp as (ds & Hds & Hdp). clear - HF R Hds Hdp Hif. 
    induction HF as [|kr ds' l l' Hx _ IH]; [destruct Hds|]. destruct Hds as [->|Hds].
    - apply (proj2 (R kr ds (or_introl eq_refl) Hx)); auto.
    - apply IH; auto. intros kr' ds2 Hk'. apply R. now right. }
  assert (HH : forall i j dp, hit f i j dp = true -> in_frame f dp = true /\ dep_row dp = Z.of_nat i /\ dep_col dp = Z.of_nat j).
  { intros i j [[[f' i'] j'] v] Hh. unfold hit in Hh. apply andb_true_iff in Hh as [Hh H3]. apply andb_true_iff in Hh as [H1 H2].
    apply Z.eqb_eq in H1, H2, H3. unfold in_frame, dep_row, dep_col. cbn. subst. rewrite Z.eqb_refl. auto. }
  assert (Hflt : (f < f_n im)%nat).
  { destruct Hex as (r & Hr & Hrf). destruct (out_reads _ _ _ _ _ _ Hf Hn Ho Hr) as (E28 & _). rewrite E28 in Hrf.
    destruct (projected_prow _ _ _ _ _ _ Hf Hn Ho Hr) as (f' & zd & yd & i' & P). unfold fcol in Hrf. rewrite (pr_frame _ _ _ _ _ _ _ P) in Hrf. cbn [fval] in Hrf.
    apply INR_eq in Hrf. subst f'. rewrite En. exact (pr_frame_lt _ _ _ _ _ _ _ P). }
  destruct (pC46_convolution_conserves d psf raw f Hs Hm Hk) as [_ T].
  - intros i j _. cbn [raw f_at]. apply nsum_finite. intros dp Hdp. destruct (hit f i j dp) eqn:Eh'; [|reflexivity]. apply HH in Eh' as (A & _). now apply R2.
  - exact Hflt.
  - intros i j _ Hnz. cbn [raw f_at] in Hnz. apply nsum_nonzero in Hnz as (dp & Hdp & Hnz). destruct (hit f i j dp) eqn:Eh'; [|exfalso; apply Hnz; reflexivity].
    apply HH in Eh' as (A & B & C). destruct (R2 dp Hdp A) as (_ & Q). rewrite B, C in Q. cbn [raw f_h f_w]. exact Q.
  - transitivity (frame_total (conv3 psf raw) f).
    { unfold frame_total. rewrite Eh, Ew. cbn [conv3 f_h f_w raw]. apply nsum_ext. intros ij _. apply Hat. }
    rewrite T. unfold raw. rewrite (frame_total_put _ _ _ _ f) by exact Hin.
    rewrite concat_map, nsum_concat, map_map. clear - HF R. induction HF as [|kr ds l l' Hx _ IH]; cbn [map].
    + reflexivity.
    + rewrite nsum_cons, (proj1 (R kr ds (or_introl eq_refl) Hx)), IH by (intros; apply R; auto; now right).
      rewrite sum_list_cons. reflexivity.
Qed.
(** When no ray crosses the lit part (a sliver between the sampled rays) the
    normalisation is 0/0 and the frame is NaN on the whole footprint. *)
Lemma pC47_missed_sliver_nan : forall e d pd frames ml mi im out k r f hl r0 r1 c0 c1 i j, fresh pd -> built d -> 0 < d_zmax d -> 0 < d_ymax d ->
  (0 <= d_max_radius d)%Z ->
  render e d pd frames "macro" ml mi = Ok (im, out) ->
  nth_error (pd_peaks out) k = Some r -> read out r "frame" = INR f ->
  lit_part e out r hl -> footprint e d out r hl r0 r1 c0 c1 -> ((r1 - r0) * (c1 - c0))%Z <> 1%Z ->
  ~ some_ray_hits e d out k r hl r0 r1 c0 c1 -> in_box r0 r1 c0 c1 (Z.of_nat i) (Z.of_nat j) ->
  f_at im f i j = NaN.
Proof.
  intros e d pd frames ml mi im out k r f hl r0 r1 c0 c1 i j Hf Hb Pz Py Hm H Hnth Hrf Hlit Hfp Hn1 Hno [Hi Hj].
  pose proof (nth_error_In _ _ Hnth) as Hr.
  assert (Hne : pd_peaks out <> []) by (intros C; rewrite C in Hr; destruct Hr).
  destruct (macro_inv _ _ _ _ _ _ _ _ H) as [Ho _]. pose proof (nframes_ge frames) as Hn.
  destruct (macro_raw _ _ _ _ _ _ _ _ Hf Hb Pz Py H Hne) as (psf & deps & Hk & HF & Hin & En & Eh & Ew & Hat).
  rewrite (Hat f (ex_intro _ r (conj Hr Hrf))). clear Hat.
  destruct (pC35_box_inside_complete_pixels _ _ _ _ _ _ _ _ Hb Pz Py Hfp) as (Q1 & Q2 & Q3 & Q4 & _).
  assert (exists ds, In ds deps /\ macro_deposits e d (pd_beam out) (pd_mesh out) (pd_motion out) k r = Ok ds) as (ds & Hds & Hd).
  { apply numbered_nth in Hnth. clear - HF Hnth. induction HF as [|kr ds' l l' Hx _ IH]; [destruct Hnth|]. destruct Hnth as [->|Hds].
    - exists ds'. split; auto. now left.
    - destruct (IH Hds) as (ds & A & B). exists ds. split; auto. now right. }
  destruct (macro_row_lit _ _ _ _ _ _ _ _ _ _ _ _ _ Hf Hn Ho Hr Hd Hlit Hfp) as (pr & Hpr & ->).
  destruct (project_hull_spec _ _ _ _ _ _ _ _ _ _ _ Hpr) as [_ T]; try lia. specialize (T Hn1 Hno).
  destruct (out_reads _ _ _ _ _ _ Hf Hn Ho Hr) as (E28 & _). rewrite E28 in Hrf.
  assert (Et : ztrunc (fcol r 28) = Z.of_nat f) by (rewrite Hrf; apply ztrunc_eq; [lia|rewrite <- ?INR_IZR_INZ; lra]).
  set (a := (i - Z.to_nat r0)%nat). set (b := (j - Z.to_nat c0)%nat).
  assert (Hab : In (a, b) (list_prod (seq 0 (Z.to_nat (r1 - r0))) (seq 0 (Z.to_nat (c1 - c0))))) by (apply in_prod; apply in_seq; unfold a, b; lia).
  specialize (T _ Hab). cbn [fst snd] in T.
  (* the deposit at (i, j) *)
  cbn [conv3 f_at f_h f_w]. unfold conv2. cbv zeta. apply nsum_nan.
  pose proof (psf_radius_nonneg d Hm) as Hrad.
  assert (En' : k_n psf = Z.to_nat (2 * psf_radius d + 1)).
  { unfold psf_kernel in Hk. destruct (psf_radius d <? 0)%Z; [discriminate|]. inversion Hk. reflexivity. }
  apply in_map_iff. exists ((k_n psf / 2)%nat, (k_n psf / 2)%nat). cbn [fst snd]. split.
  - replace (Z.of_nat i + Z.of_nat (k_n psf / 2) - Z.of_nat (k_n psf / 2))%Z with (Z.of_nat i) by lia.
    replace (Z.of_nat j + Z.of_nat (k_n psf / 2) - Z.of_nat (k_n psf / 2))%Z with (Z.of_nat j) by lia.
    assert (E : padded (d_nz d) (d_ny d) (fun i j => nsum (map (fun dp => if hit f i j dp then snd dp else Fin 0) (List.concat deps))) (Z.of_nat i) (Z.of_nat j) = NaN).
    { unfold padded. replace (_ && _)%bool with true by (symmetry; repeat (apply andb_true_iff; split); try apply Z.leb_le; try apply Z.ltb_lt; lia).
      rewrite !Nat2Z.id. apply nsum_nan. apply in_map_iff. exists (Z.of_nat f, Z.of_nat i, Z.of_nat j, NaN). split.
      - unfold hit. now rewrite !Z.eqb_refl.
      - apply in_concat. eexists. split; [exact Hds|]. unfold box_deposits. apply in_map_iff. exists (a, b). split; [|exact Hab].
        cbn [fst snd]. rewrite T, Et. f_equal. f_equal; [f_equal|]; unfold a, b; lia. }
    rewrite E. reflexivity.
  - unfold grid. assert (k_n psf / 2 < k_n psf)%nat by (apply Nat.div_lt; lia). apply in_prod; apply in_seq; lia.
Qed.
