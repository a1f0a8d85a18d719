(** * utils.py:127-165 _sample_convex_hull_3d. *)
From Verif Require Import Vec Spec MLaue MMesh MSample SBeam SSample PLaue PMesh PLevelset.
Open Scope R_scope.

Lemma vol_nonneg t : 0 <= cone_volume t.
Proof. unfold cone_volume. pose proof (Rabs_pos (dot (vsub (q1 t) (q0 t)) (cross (vsub (q2 t) (q0 t)) (vsub (q3 t) (q0 t))))). lra. Qed.
Lemma sum_nonneg l : (forall x, In x l -> 0 <= x) -> 0 <= sum_list l.
Proof. unfold sum_list. induction l as [|x l IH]; intros H; cbn; [lra|]. pose proof (H x (or_introl eq_refl)). specialize (IH (fun y Hy => H y (or_intror Hy))). lra. Qed.
Lemma cumsum_length acc l : List.length (cumsum acc l) = List.length l.
Proof. revert acc; induction l as [|x l IH]; intros; cbn; auto. Qed.
Lemma cumsum_nth acc l i : (i < List.length l)%nat -> nth i (cumsum acc l) 0 = acc + sum_list (firstn (S i) l).
Proof.
  unfold sum_list. revert acc i; induction l as [|x l IH]; intros acc [|i] H; cbn [List.length] in H; try lia.
  - cbn. lra.
  - cbn [cumsum nth]. rewrite IH by lia. change (firstn (S (S i)) (x :: l)) with (x :: firstn (S i) l). cbn [fold_right]. lra.
Qed.
Lemma last_nth' (l : list R) : last l 0 = nth (List.length l - 1) l 0.
Proof.
  induction l as [|x l IH]; [reflexivity|]. destruct l as [|y l]; [reflexivity|]. change (last (x :: y :: l) 0) with (last (y :: l) 0). rewrite IH.
  cbn [List.length]. replace (S (S (List.length l)) - 1)%nat with (S (List.length l)) by lia. replace (S (List.length l) - 1)%nat with (List.length l) by lia. reflexivity.
Qed.
Lemma search_spec l u i : (forall a b, (a <= b < List.length l)%nat -> nth a l 0 <= nth b l 0) -> (i < List.length l)%nat ->
  (search_right l u = i <-> u < nth i l 0 /\ (i = 0%nat \/ nth (i - 1) l 0 <= u)).
Proof.
  revert i. induction l as [|x l IH]; intros i Hs Hi; cbn [List.length] in Hi; [lia|]. cbn [search_right].
  assert (Hs' : forall a b, (a <= b < List.length l)%nat -> nth a l 0 <= nth b l 0) by (intros a b H; apply (Hs (S a) (S b)); cbn [List.length]; lia).
  destruct (Rle_dec x u) as [D|D].
  - destruct i as [|i].
    + split; [discriminate|]. cbn [nth]. intros [A _]. lra.
    + split.
      * intros E. assert (E' : search_right l u = i) by congruence. apply IH in E' as [A B]; [|auto|lia]. split; [exact A|]. right.
        destruct i; [exact D|]. destruct B as [B|B]; [discriminate|]. replace (S (S i) - 1)%nat with (S i) by lia. cbn [nth]. replace (S i - 1)%nat with i in B by lia. exact B.
      * intros [A B]. f_equal. apply IH; [auto|lia|]. split; [exact A|]. destruct i; [left; reflexivity|]. right. destruct B as [B|B]; [discriminate|].
        replace (S (S i) - 1)%nat with (S i) in B by lia. cbn [nth] in B. replace (S i - 1)%nat with i by lia. exact B.
  - destruct i as [|i].
    + split; [intros _; cbn; split; [lra|left; reflexivity]|reflexivity].
    + split; [discriminate|]. intros [A B]. exfalso. destruct B as [B|B]; [discriminate|].
      pose proof (Hs 0%nat (S i - 1)%nat ltac:(cbn [List.length]; lia)) as M. change (nth 0 (x :: l) 0) with x in M. lra.
Qed.
Lemma sum_firstn_le l i j : (forall x, In x l -> 0 <= x) -> (i <= j)%nat -> sum_list (firstn i l) <= sum_list (firstn j l).
Proof.
  unfold sum_list. revert i j; induction l as [|x l IH]; intros i j H Hij; [rewrite !firstn_nil; lra|].
  destruct i as [|i]; [cbn [firstn fold_right]; apply (sum_nonneg (firstn j (x :: l))); intros y Hy; apply H; revert Hy; clear; revert j; generalize (x :: l); induction l0 as [|a l0 IH]; intros [|j] Hy; cbn in Hy; try tauto; destruct Hy as [-> |Hy]; [left; reflexivity|right; eapply IH; eauto]|].
  destruct j as [|j]; [lia|]. cbn [firstn fold_right]. specialize (IH i j (fun y Hy => H y (or_intror Hy)) ltac:(lia)). lra.
Qed.
Lemma sum_scale l c : sum_list (map (fun x => x / c) l) = sum_list l / c.
Proof. unfold sum_list, Rdiv. induction l as [|x l IH]; cbn; [lra|]. rewrite IH. ring. Qed.
(** Piece i is drawn exactly when u lies in an interval of length volume / total. *)
Lemma choose_spec vols u i : (forall x, In x vols -> 0 <= x) -> 0 < sum_list vols -> (i < List.length vols)%nat ->
  (choose (map (fun v => v / sum_list vols) vols) u = i <->
   (i = 0%nat \/ sum_list (firstn i vols) <= u * sum_list vols) /\ u * sum_list vols < sum_list (firstn (S i) vols)).
Proof.
  intros Hp Ht Hi. unfold choose. set (T := sum_list vols) in *. set (p := map (fun v => v / T) vols).
  assert (Lp : List.length p = List.length vols) by (unfold p; apply map_length).
  assert (Fp : forall k, sum_list (firstn k p) = sum_list (firstn k vols) / T) by (intros k; unfold p; rewrite firstn_map; apply sum_scale).
  assert (Last : last (cumsum 0 p) 0 = 1).
  { rewrite last_nth', cumsum_length, cumsum_nth by lia. rewrite Fp. replace (S (List.length p - 1)) with (List.length vols) by lia. rewrite firstn_all. fold T. field. lra. }
  rewrite Last. set (c := map (fun x => x / 1) (cumsum 0 p)).
  assert (Lc : List.length c = List.length vols) by (unfold c; rewrite map_length, cumsum_length; auto).
  assert (Nc : forall k, (k < List.length vols)%nat -> nth k c 0 = sum_list (firstn (S k) vols) / T).
  { intros k Hk. unfold c. replace 0 with (0 / 1) by field. rewrite (map_nth (fun x => x / 1)). replace (0 / 1) with 0 by field. rewrite cumsum_nth by lia. rewrite Fp. field. lra. }
  rewrite search_spec; [| |lia].
  - rewrite (Nc i) by auto. assert (X : forall y, u < y / T <-> u * T < y).
    { intros y. split; intros H; [apply (Rmult_lt_compat_r T) in H; [|auto]; replace (y / T * T) with y in H by (field; lra); exact H|].
      apply (Rmult_lt_reg_r T); auto. replace (y / T * T) with y by (field; lra). exact H. }
    assert (Y : forall y, y / T <= u <-> y <= u * T).
    { intros y. split; intros H; [apply (Rmult_le_compat_r T) in H; [|lra]; replace (y / T * T) with y in H by (field; lra); exact H|].
      apply (Rmult_le_reg_r T); auto. replace (y / T * T) with y by (field; lra). exact H. }
    rewrite X. destruct i as [|i]; [tauto|]. replace (S i - 1)%nat with i by lia. rewrite (Nc i) by lia. rewrite Y. tauto.
  - intros a b Hab. rewrite !Nc by lia. unfold Rdiv. apply Rmult_le_compat_r; [left; apply Rinv_0_lt_compat; auto|]. apply sum_firstn_le; auto. lia.
Qed.
Lemma choose_lt vols u : (forall x, In x vols -> 0 <= x) -> 0 < sum_list vols -> 0 <= u < 1 -> (choose (map (fun v => (v / sum_list vols)%R) vols) u < List.length vols)%nat.
Proof.
  intros Hp Ht Hu.
  assert (E : exists i, (i < List.length vols)%nat /\ (i = 0%nat \/ sum_list (firstn i vols) <= u * sum_list vols) /\ u * sum_list vols < sum_list (firstn (S i) vols)).
  { set (x := u * sum_list vols). assert (Hx : x < sum_list (firstn (List.length vols) vols)) by (rewrite firstn_all; unfold x; nra).
    assert (Hx0 : 0 <= x) by (unfold x; apply Rmult_le_pos; lra). clearbody x. clear Hp Ht Hu u.
    assert (G : forall n, (n <= List.length vols)%nat -> x < sum_list (firstn n vols) -> exists i, (i < List.length vols)%nat /\ (i = 0%nat \/ sum_list (firstn i vols) <= x) /\ x < sum_list (firstn (S i) vols)).
    { induction n as [|n IH]; intros Hn H; [unfold sum_list in H; cbn in H; lra|]. destruct (Rlt_le_dec x (sum_list (firstn n vols))) as [L|L]; [apply IH; auto; lia|]. exists n. split; [lia|]. auto. }
    apply (G (List.length vols)); auto. }
  destruct E as (i & Hi & HH). apply choose_spec in HH; auto. rewrite HH. exact Hi.
Qed.

Lemma mean_hull (points : list vec) : points <> [] -> in_hull points (hull_mean points).
Proof.
  intros N. unfold hull_mean. set (n := INR (List.length points)).
  assert (Hn : 0 < n) by (unfold n; destruct points; [congruence|]; apply lt_0_INR; cbn; lia).
  exists (repeat (/ n) (List.length points)). split; [apply repeat_length|]. split.
  - intros w Hw. apply repeat_spec in Hw as ->. left. apply Rinv_0_lt_compat; auto.
  - assert (S1 : forall k x, sum_list (repeat x k) = INR k * x) by (unfold sum_list; induction k as [|k IH]; intros x; cbn [repeat fold_right]; [cbn; ring|rewrite IH, S_INR; ring]).
    split; [rewrite S1; fold n; field; lra|].
    clearbody n. clear. induction points as [|p points IH]; [cbn; veq|]. cbn [List.length repeat combine map fold_right fst snd]. rewrite <- IH. veq.
Qed.
Lemma hull_mix vs p q s : in_hull vs p -> in_hull vs q -> 0 <= s <= 1 -> in_hull vs (vadd (vscale (1 - s) p) (vscale s q)).
Proof.
  intros (ws & L1 & P1 & S1 & ->) (xs & L2 & P2 & S2 & ->) Hs.
  exists (map (fun ab => (1 - s) * fst ab + s * snd ab) (combine ws xs)).
  split; [rewrite map_length, combine_length; lia|]. split.
  - intros w Hw. apply in_map_iff in Hw as ((a & b) & <- & Hin). pose proof (P1 a (in_combine_l _ _ _ _ Hin)). pose proof (P2 b (in_combine_r _ _ _ _ Hin)). cbn. nra.
  - split.
    + assert (E : forall ws xs : list R, List.length ws = List.length xs -> sum_list (map (fun ab => (1 - s) * fst ab + s * snd ab) (combine ws xs)) = (1 - s) * sum_list ws + s * sum_list xs).
      { clear. unfold sum_list. induction ws as [|a ws IH]; intros [|b xs] L; try discriminate; cbn [combine map fold_right fst snd]; [ring|]. rewrite IH by (cbn in L; lia). ring. }
      rewrite E, S1, S2 by lia. ring.
    + assert (E : forall (vs : list vec) (ws xs : list R), List.length ws = List.length vs -> List.length xs = List.length vs ->
        vadd (vscale (1 - s) (fold_right vadd vzero (map (fun wv => vscale (fst wv) (snd wv)) (combine ws vs)))) (vscale s (fold_right vadd vzero (map (fun wv => vscale (fst wv) (snd wv)) (combine xs vs)))) =
        fold_right vadd vzero (map (fun wv => vscale (fst wv) (snd wv)) (combine (map (fun ab => (1 - s) * fst ab + s * snd ab) (combine ws xs)) vs))).
      { clear. induction vs as [|v vs IH]; intros [|a ws] [|b xs] La Lb; try discriminate; cbn [combine map fold_right fst snd]; [veq|].
        rewrite <- IH by (cbn in *; lia). set (P := fold_right _ _ _). set (Q := fold_right _ _ _). clearbody P Q. veq. }
      apply E; auto.
Qed.
Lemma hull_tetra vs a b c d p : in_hull vs a -> in_hull vs b -> in_hull vs c -> in_hull vs d -> in_tetra a b c d p -> in_hull vs p.
Proof.
  intros Ha Hb Hc Hd (s & t & u & v & Hs & Ht & Hu & Hv & E & ->).
  destruct (Req_dec (t + u + v) 0) as [Z|Z].
  - assert (t = 0 /\ u = 0 /\ v = 0 /\ s = 1) as (-> & -> & -> & ->) by (repeat split; lra).
    replace (vadd _ _) with a by veq. exact Ha.
  - assert (HB : in_hull vs (vscale (/ (t + u + v)) (vadd (vscale t b) (vadd (vscale u c) (vscale v d))))).
    { destruct (Req_dec (u + v) 0) as [Y|Y].
      - assert (u = 0 /\ v = 0) as (-> & ->) by (split; lra). replace (vscale _ _) with b; [exact Hb|]. destruct b, c, d. vext; vunf; field; lra.
      - assert (HC : in_hull vs (vscale (/ (u + v)) (vadd (vscale u c) (vscale v d)))).
        { replace (vscale (/ (u + v)) (vadd (vscale u c) (vscale v d))) with (vadd (vscale (1 - v / (u + v)) c) (vscale (v / (u + v)) d)) by (destruct c, d; vext; vunf; field; lra).
          apply hull_mix; auto. split; [apply Rmult_le_pos; [lra|left; apply Rinv_0_lt_compat; lra]|]. apply (Rmult_le_reg_r (u + v)); [lra|]. replace (v / (u + v) * (u + v)) with v by (field; lra). lra. }
        replace (vscale (/ (t + u + v)) (vadd (vscale t b) (vadd (vscale u c) (vscale v d)))) with
          (vadd (vscale (1 - (u + v) / (t + u + v)) b) (vscale ((u + v) / (t + u + v)) (vscale (/ (u + v)) (vadd (vscale u c) (vscale v d))))) by (destruct b, c, d; vext; vunf; field; lra).
        apply hull_mix; auto. split; [apply Rmult_le_pos; [lra|left; apply Rinv_0_lt_compat; lra]|]. apply (Rmult_le_reg_r (t + u + v)); [lra|]. replace ((u + v) / (t + u + v) * (t + u + v)) with (u + v) by (field; lra). lra. }
    replace (vadd (vscale s a) (vadd (vscale t b) (vadd (vscale u c) (vscale v d)))) with
      (vadd (vscale (1 - (t + u + v)) a) (vscale (t + u + v) (vscale (/ (t + u + v)) (vadd (vscale t b) (vadd (vscale u c) (vscale v d))))))
      by (replace s with (1 - (t + u + v)) by lra; destruct a, b, c, d; vext; vunf; field; lra).
    apply hull_mix; auto. lra.
Qed.
Lemma blend_tetra u a b c e t : draw_ok (u, (a, b, c, e)) -> in_tetra (q0 t) (q1 t) (q2 t) (q3 t) (blend (a, b, c, e) t).
Proof.
  intros (Hu & Ha & Hb & Hc & He & Hs). set (S := a + b + c + e) in *.
  assert (Hi : 0 < / S) by (apply Rinv_0_lt_compat; auto).
  exists (a / S), (b / S), (c / S), (e / S). unfold Rdiv. repeat split; try (apply Rmult_le_pos; lra).
  unfold S. field. unfold S in *. lra.
Qed.
Lemma cone_inv points s t : cone points s = Ok t -> exists a b c, s = (a, b, c) /\ q0 t = hull_mean points /\
  nth_error points a = Some (q1 t) /\ nth_error points b = Some (q2 t) /\ nth_error points c = Some (q3 t).
Proof.
  destruct s as [[a b] c]. unfold cone. destruct (nth_error points a) eqn:A, (nth_error points b) eqn:B, (nth_error points c) eqn:C; try discriminate.
  intros H. exists a, b, c. destruct t as [x0 x1 x2 x3]. assert (x0 = hull_mean points /\ x1 = v /\ x2 = v0 /\ x3 = v1) as (-> & -> & -> & ->) by (set (h := hull_mean points) in *; clearbody h; repeat split; congruence).
  cbn. auto 6.
Qed.
Lemma sample_inv points simplices draws out : sample_hull points simplices draws = Ok out ->
  exists tets, traverse (cone points) simplices = Ok tets /\ 0 < sum_list (map cone_volume tets) /\
    out = map (fun uw => blend (snd uw) (nth (choose (map (fun v => v / sum_list (map cone_volume tets)) (map cone_volume tets)) (fst uw)) tets (Tet vzero vzero vzero vzero))) draws.
Proof.
  unfold sample_hull. destruct (traverse (cone points) simplices) as [tets|] eqn:T; cbn [bind]; [|discriminate].
  destruct (Req_EM_T _ 0) as [Z|Z]; [discriminate|]. intros H. exists tets. split; [reflexivity|]. split; [|congruence].
  pose proof (sum_nonneg (map cone_volume tets)) as N. assert (0 <= sum_list (map cone_volume tets)) by (apply N; intros x Hx; apply in_map_iff in Hx as (t & <- & _); apply vol_nonneg). lra.
Qed.
Lemma tet_in points simplices tets u : traverse (cone points) simplices = Ok tets -> 0 < sum_list (map cone_volume tets) -> 0 <= u < 1 ->
  let i := choose (map (fun v => v / sum_list (map cone_volume tets)) (map cone_volume tets)) u in
  (i < List.length simplices)%nat /\ cone points (nth i simplices (0, 0, 0)%nat) = Ok (nth i tets (Tet vzero vzero vzero vzero)).
Proof.
  intros T P Hu i. assert (Hi : (i < List.length tets)%nat).
  { unfold i. erewrite <- (map_length cone_volume tets). apply choose_lt; auto. intros x Hx. apply in_map_iff in Hx as (t & <- & _). apply vol_nonneg. }
  apply traverse_spec in T. assert (L : List.length simplices = List.length tets) by (eapply Forall2_len; eauto). split; [lia|].
  clearbody i. clear P Hu L. revert i Hi. induction T; intros i Hi; cbn in Hi; [lia|]. destruct i; [exact H|]. apply IHT. lia.
Qed.

(** As many points as asked for, all of them in the convex hull. *)
Lemma pC82_in_hull : forall points simplices draws out, points <> [] -> (forall d, In d draws -> draw_ok d) ->
  sample_hull points simplices draws = Ok out ->
  List.length out = List.length draws /\ forall p, In p out -> in_hull points p.
Proof.
  intros points simplices draws out N Hd H. destruct (sample_inv _ _ _ _ H) as (tets & T & P & ->). split; [apply map_length|].
  intros p Hp. apply in_map_iff in Hp as ((u & [[[a b] c] e]) & <- & Hin). pose proof (Hd _ Hin) as D. cbn [fst snd].
  destruct (tet_in points simplices tets u T P (proj1 D)) as [Hi HC]. set (i := choose _ u) in *. clearbody i.
  destruct (cone_inv _ _ _ HC) as (x & y & z & _ & E0 & E1 & E2 & E3).
  eapply hull_tetra; [| | | |eapply blend_tetra; exact D].
  - rewrite E0. apply mean_hull, N.
  - apply hull_in. eapply nth_error_In; eauto.
  - apply hull_in. eapply nth_error_In; eauto.
  - apply hull_in. eapply nth_error_In; eauto.
Qed.
Lemma mean_unique points r : points <> [] -> centre points r -> r = hull_mean points.
Proof.
  intros N H. unfold centre in H. unfold hull_mean. rewrite <- H. assert (0 < INR (List.length points)) by (destruct points; [congruence|]; apply lt_0_INR; cbn; lia).
  set (n := INR _) in *. destruct r. vext; vunf; field; lra.
Qed.
Lemma cone_vol points s t v : cone points s = Ok t -> piece_volume points (hull_mean points) s v -> v = cone_volume t.
Proof.
  intros HC (a & b & c & A & B & C & ->). destruct (cone_inv _ _ _ HC) as (x & y & z & -> & E0 & E1 & E2 & E3). cbn [fst snd] in *.
  unfold cone_volume. rewrite E0. replace a with (q1 t) by congruence. replace b with (q2 t) by congruence. replace c with (q3 t) by congruence. reflexivity.
Qed.
Lemma vols_eq points simplices tets vols : traverse (cone points) simplices = Ok tets -> Forall2 (piece_volume points (hull_mean points)) simplices vols -> vols = map cone_volume tets.
Proof.
  intros T. apply traverse_spec in T. revert vols. induction T; intros vols F; inversion F; subst; [reflexivity|]. cbn. f_equal; [eapply cone_vol; eauto|]. apply IHT; auto.
Qed.
(** A sample comes from the piece over surface triangle i exactly when u * (total volume) falls into the interval
    between the volumes of the pieces before i and those up to i: the probability is the piece's share of the volume. *)
Lemma pC82_by_volume : forall points simplices draws out r vols k u w i p,
  points <> [] -> (forall d, In d draws -> draw_ok d) -> sample_hull points simplices draws = Ok out ->
  centre points r -> Forall2 (piece_volume points r) simplices vols ->
  nth_error draws k = Some (u, w) -> nth_error out k = Some p -> (i < List.length simplices)%nat ->
  sum_list (firstn i vols) <= u * sum_list vols < sum_list (firstn (S i) vols) ->
  exists a b c xa xb xc, nth_error simplices i = Some (a, b, c) /\ nth_error points a = Some xa /\ nth_error points b = Some xb /\ nth_error points c = Some xc /\
    in_tetra r xa xb xc p /\
    p = vscale (/ (fst (fst (fst w)) + snd (fst (fst w)) + snd (fst w) + snd w))
          (vadd (vscale (fst (fst (fst w))) r) (vadd (vscale (snd (fst (fst w))) xa) (vadd (vscale (snd (fst w)) xb) (vscale (snd w) xc)))).
Proof.
  intros points simplices draws out r vols k u w i p N Hd H Hr HV Hk Hp Hi Hu.
  rewrite (mean_unique points r N Hr) in *. clear Hr r.
  destruct (sample_inv _ _ _ _ H) as (tets & T & P & ->). pose proof (vols_eq _ _ _ _ T HV) as ->.
  assert (L : List.length simplices = List.length tets) by (eapply Forall2_len; apply traverse_spec; exact T).
  rewrite nth_error_map, Hk in Hp. cbn [option_map fst snd] in Hp.
  assert (D : draw_ok (u, w)) by (apply Hd; eapply nth_error_In; eauto).
  assert (Hu01 : 0 <= u < 1) by (destruct w as [[[? ?] ?] ?]; exact (proj1 D)).
  assert (E : choose (map (fun v => v / sum_list (map cone_volume tets)) (map cone_volume tets)) u = i).
  { apply choose_spec; [intros x Hx; apply in_map_iff in Hx as (t & <- & _); apply vol_nonneg|exact P|rewrite map_length; lia|]. split; [right|]; lra. }
  rewrite E in Hp. destruct (tet_in points simplices tets u T P Hu01) as [_ HC]. rewrite E in HC. set (t := nth i tets _) in *.
  destruct (cone_inv _ _ _ HC) as (a & b & c & Es & E0 & E1 & E2 & E3).
  exists a, b, c, (q1 t), (q2 t), (q3 t). split.
  { rewrite (nth_error_nth' simplices (0, 0, 0)%nat Hi). congruence. }
  split; [exact E1|]. split; [exact E2|]. split; [exact E3|]. rewrite <- E0. assert (Ep : p = blend w t) by congruence. rewrite Ep.
  destruct w as [[[w0 w1] w2] w3]. split; [eapply blend_tetra; exact D|]. cbn [fst snd blend]. destruct D as (_ & _ & _ & _ & _ & Hs). destruct (q0 t), (q1 t), (q2 t), (q3 t). vext; vunf; field; lra.
Qed.
Lemma firstn_step : forall (l : list R) i, (i < List.length l)%nat -> sum_list (firstn (S i) l) = sum_list (firstn i l) + nth i l 0.
Proof.
  unfold sum_list. induction l as [|x l IH]; intros [|i] Hi; cbn [List.length] in Hi; try lia.
  - cbn. lra.
  - change (firstn (S (S i)) (x :: l)) with (x :: firstn (S i) l). change (firstn (S i) (x :: l)) with (x :: firstn i l). cbn [fold_right nth]. rewrite IH by lia. lra.
Qed.
(** Every point of a piece of positive volume can be drawn. *)
Lemma pC82_reachable : forall points simplices r i a b c xa xb xc p,
  points <> [] -> valid_simplices points simplices -> centre points r ->
  nth_error simplices i = Some (a, b, c) -> nth_error points a = Some xa -> nth_error points b = Some xb -> nth_error points c = Some xc ->
  signed_vol6 r xa xb xc <> 0 -> in_tetra r xa xb xc p ->
  exists d, draw_ok d /\ sample_hull points simplices [d] = Ok [p].
Proof.
  intros points simplices r i a b c xa xb xc p N HV Hr Hi Ha Hb Hc Hv (s & t & u & v & Hs & Ht & Hu & Hv' & E & Ep).
  pose proof (mean_unique points r N Hr) as Er.
  assert (T : exists tets, traverse (cone points) simplices = Ok tets).
  { apply traverse_ok. intros [[x y] z] Hx. destruct (HV x y z Hx) as (L1 & L2 & L3). unfold cone.
    apply nth_error_Some in L1, L2, L3. destruct (nth_error points x); [|congruence]. destruct (nth_error points y); [|congruence]. destruct (nth_error points z); [|congruence]. eauto. }
  destruct T as (tets & T). pose proof (traverse_spec _ _ _ T) as F.
  assert (L : List.length simplices = List.length tets) by (eapply Forall2_len; exact F).
  assert (Li : (i < List.length simplices)%nat) by (apply nth_error_Some; congruence).
  assert (Hti : nth i tets (Tet vzero vzero vzero vzero) = Tet r xa xb xc).
  { assert (G : forall l m, Forall2 (fun x y => cone points x = Ok y) l m -> forall i s, nth_error l i = Some s -> cone points s = Ok (nth i m (Tet vzero vzero vzero vzero))).
    { intros l m FF. induction FF; intros j sj Hj; [destruct j; discriminate|]. destruct j; [cbn in *; congruence|]. apply IHFF; auto. }
    specialize (G _ _ F _ _ Hi). unfold cone in G. rewrite Ha, Hb, Hc in G. rewrite <- Er in G. congruence. }
  set (vols := map cone_volume tets).
  assert (Pos : forall x, In x vols -> 0 <= x) by (intros x Hx; apply in_map_iff in Hx as (t' & <- & _); apply vol_nonneg).
  assert (Vi : 0 < nth i vols 0).
  { unfold vols. rewrite (nth_indep _ 0 (cone_volume (Tet vzero vzero vzero vzero))) by (rewrite map_length; lia). rewrite map_nth, Hti. unfold cone_volume. cbn [q0 q1 q2 q3].
    assert (0 < Rabs (signed_vol6 r xa xb xc)) by (apply Rabs_pos_lt; auto). unfold signed_vol6, triple in *. lra. }
  assert (Step : sum_list (firstn (S i) vols) = sum_list (firstn i vols) + nth i vols 0).
  { apply firstn_step. unfold vols. rewrite map_length. lia. }
  assert (Tot : 0 < sum_list vols /\ sum_list (firstn (S i) vols) <= sum_list vols).
  { pose proof (sum_firstn_le vols (S i) (List.length vols) Pos) as A. rewrite firstn_all in A. assert (B : (S i <= List.length vols)%nat) by (unfold vols; rewrite map_length; lia). specialize (A B).
    pose proof (sum_firstn_le vols 0 i Pos ltac:(lia)) as C. cbn [firstn] in C. unfold sum_list at 1 in C. cbn in C. lra. }
  destruct Tot as [Tp Tl]. pose proof (sum_firstn_le vols 0 i Pos ltac:(lia)) as C0. cbn [firstn] in C0. unfold sum_list at 1 in C0. cbn in C0.
  exists (sum_list (firstn i vols) / sum_list vols, (s, t, u, v)).
  assert (D : draw_ok (sum_list (firstn i vols) / sum_list vols, (s, t, u, v))).
  { split; [|repeat split; auto; lra]. split; [apply Rmult_le_pos; [lra|left; apply Rinv_0_lt_compat; auto]|]. apply (Rmult_lt_reg_r (sum_list vols)); auto.
    replace (sum_list (firstn i vols) / sum_list vols * sum_list vols) with (sum_list (firstn i vols)) by (field; lra). lra. }
  split; [exact D|]. unfold sample_hull. rewrite T. cbn [bind]. fold vols. destruct (Req_EM_T (sum_list vols) 0); [lra|]. cbn [map fst snd].
  assert (Ech : choose (map (fun v => v / sum_list vols) vols) (sum_list (firstn i vols) / sum_list vols) = i).
  { apply choose_spec; auto; [unfold vols; rewrite map_length; lia|]. replace (sum_list (firstn i vols) / sum_list vols * sum_list vols) with (sum_list (firstn i vols)) by (field; lra). split; [right|]; lra. }
  rewrite Ech, Hti. cbn [blend q0 q1 q2 q3]. rewrite E. rewrite Ep. do 2 f_equal. unfold Rdiv. rewrite Rinv_1, !Rmult_1_r. reflexivity.
Qed.
(** A hull without volume (all pieces flat) is refused. *)
Lemma pC82_flat_raises : forall points simplices draws r, points <> [] -> valid_simplices points simplices -> centre points r ->
  (forall a b c xa xb xc, In (a, b, c) simplices -> nth_error points a = Some xa -> nth_error points b = Some xb -> nth_error points c = Some xc -> signed_vol6 r xa xb xc = 0) ->
  sample_hull points simplices draws = Err ValueError.
Proof.
  intros points simplices draws r N HV Hr Hf. pose proof (mean_unique points r N Hr) as Er.
  assert (T : exists tets, traverse (cone points) simplices = Ok tets).
  { apply traverse_ok. intros [[x y] z] Hx. destruct (HV x y z Hx) as (L1 & L2 & L3). unfold cone.
    apply nth_error_Some in L1, L2, L3. destruct (nth_error points x); [|congruence]. destruct (nth_error points y); [|congruence]. destruct (nth_error points z); [|congruence]. eauto. }
  destruct T as (tets & T). unfold sample_hull. rewrite T. cbn [bind]. destruct (Req_EM_T _ 0) as [Z|Z]; [reflexivity|]. exfalso. apply Z.
  apply traverse_spec in T. clear -T Hf Er. induction T; [reflexivity|]. unfold sum_list in *. cbn [map fold_right]. rewrite IHT by (intros; eapply Hf; eauto; right; auto).
  destruct (cone_inv _ _ _ H) as (a & b & c & -> & E0 & E1 & E2 & E3). assert (V : signed_vol6 r (q1 y) (q2 y) (q3 y) = 0) by (eapply Hf; eauto; left; reflexivity).
  unfold cone_volume. rewrite E0, <- Er. unfold signed_vol6, triple in V. rewrite V, Rabs_R0. lra.
Qed.
Lemma xC82_tetra : exists points simplices r vols, points <> [] /\ valid_simplices points simplices /\ centre points r /\
  Forall2 (piece_volume points r) simplices vols /\ List.length simplices = 4%nat /\ (forall v, In v vols -> v = 1/24) /\
  forall draws, exists out, sample_hull points simplices draws = Ok out.
Proof.
  set (P := [V3 0 0 0; V3 1 0 0; V3 0 1 0; V3 0 0 1]). set (S := [(0, 1, 2); (0, 1, 3); (0, 2, 3); (1, 2, 3)]%nat).
  exists P, S, (V3 (1/4) (1/4) (1/4)), [1/24; 1/24; 1/24; 1/24].
  assert (HC : centre P (V3 (1/4) (1/4) (1/4))) by (unfold centre, P; cbn; vext; cbn; lra).
  assert (HV : valid_simplices P S) by (intros a b c [E|[E|[E|[E|[] ] ] ] ]; injection E; intros; subst; cbn; lia).
  assert (NP : P <> []) by discriminate.
  split; [exact NP|]. split; [exact HV|]. split; [exact HC|]. split; [|split; [reflexivity|split] ].
  - unfold S. repeat constructor; unfold piece_volume; cbn [fst snd]; eexists _, _, _; (split; [reflexivity|split; [reflexivity|split; [reflexivity|] ] ]); unfold signed_vol6, triple; cbn; unfold dot, cross; cbn;
      match goal with |- _ = Rabs ?x / 6 => first [replace x with (1/4) by lra; rewrite Rabs_right by lra; lra | replace x with (- (1/4)) by lra; rewrite Rabs_Ropp, Rabs_right by lra; lra] end.
  - intros v [<- | [<- | [<- | [<- | [] ] ] ] ]; reflexivity.
  - intros draws. unfold sample_hull. destruct (pC82_reachable P S (V3 (1/4) (1/4) (1/4)) 0 0 1 2 (V3 0 0 0) (V3 1 0 0) (V3 0 1 0) (V3 0 0 0) NP HV HC eq_refl eq_refl eq_refl eq_refl) as (d & _ & H).
    + unfold signed_vol6, triple. cbn. unfold dot. cbn. lra.
    + exists 0, 1, 0, 0. repeat split; try lra. vext; cbn; lra.
    + unfold sample_hull in H. destruct (traverse (cone P) S) as [tets|]; cbn [bind] in *; [|discriminate]. destruct (Req_EM_T _ 0); [discriminate|]. eauto.
Qed.
