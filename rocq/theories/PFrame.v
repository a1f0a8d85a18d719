(** * The same experiment set up elsewhere in the laboratory (C89). *)
From Verif Require Import Vec Spec MMotion MLaue MMesh MScattering MStrain MBeam SBeam MPolycrystal SPolycrystal MDetector MRender SFrame.
From Verif Require Import PMotion PLaue PMesh PBeam PStrain PPolycrystal PPolycrystal2 PDetector PRender PEvents.
From Verif Require Import SDetector.
Open Scope list_scope. Open Scope R_scope.

Lemma put_aff A t x : put A t x = aff A t x. Proof. reflexivity. Qed.
Lemma put_sub A t x y : vsub (put A t x) (put A t y) = mv A (vsub x y). Proof. apply aff_sub. Qed.
Lemma put_map A t l : map (put A t) l = map (aff A t) l. Proof. reflexivity. Qed.

(** ** Motions *)
Lemma rod_turn A a th x : is_rotation A -> mv (rod_matrix (mv A a) th) (mv A x) = mv A (mv (rod_matrix a th) x).
Proof.
  intros H. rewrite !rod_closed, !rotation_cross, !mv_add, !mv_scale by auto. reflexivity.
Qed.
Lemma shift_alg (w o T t : vec) s : vadd (vadd w (vadd o t)) (vscale s T) = vadd (vadd (vadd w o) (vscale s T)) t.
Proof. veq. Qed.
Lemma shift_put A t w o T s : vadd (vadd (mv A w) (put A t o)) (vscale s (mv A T)) = put A t (vadd (vadd w o) (vscale s T)).
Proof. unfold put. rewrite !mv_add, !mv_scale. apply shift_alg. Qed.
Lemma neg_mv A k : vneg (mv A k) = mv A (vneg k). Proof. veq. Qed.
Lemma madd_I M x : mv (madd mI M) x = vadd x (mv M x). Proof. veq. Qed.
Lemma vdiv_scale v s : vdiv v s = vscale (/ s) v.
Proof. unfold vdiv. vext; vunf; unfold Rdiv; ring. Qed.
Lemma V3_scale v s : V3 (vx v / s) (vy v / s) (vz v / s) = vscale (/ s) v.
Proof. vext; vunf; unfold Rdiv; ring. Qed.
Section Frame.
Variables (A : mat) (t : vec).
Hypothesis HA : is_rotation A.

Lemma rot_turn m m2 s x : moved_motion A t m m2 -> rot_at m2 s (mv A x) = mv A (rot_at m s x).
Proof. intros ->. unfold rot_at. cbn [m_axis m_angle]. now apply rod_turn. Qed.
Lemma move_turn m m2 s x : moved_motion A t m m2 -> move_at m2 s (put A t x) = put A t (move_at m s x).
Proof.
  intros M. unfold move_at. rewrite M. unfold rot_at. cbn [m_axis m_angle m_origin m_trans]. rewrite put_sub, rod_turn by auto. apply shift_put.
Qed.

(** ** The solver *)
Lemma cand_turn k a w G : laue_candidates (laue_factors (mv A k) (mv A a)) w (mv A G) = laue_candidates (laue_factors k a) w G.
Proof.
  assert (K : forall x, mv (rod_K (mv A a)) (mv A x) = mv A (mv (rod_K a) x)) by (intros; rewrite !rod_K_cross; now apply rotation_cross).
  assert (E0 : dot (rf0 (laue_factors (mv A k) (mv A a))) (mv A G) = dot (rf0 (laue_factors k a)) G).
  { cbn [laue_factors rf0]. rewrite !(dot_mv_T (mT _)), !mT_mT. unfold rod_K2. rewrite !mv_mm, !K.
    rewrite neg_mv. now apply rotation_dot. }
  assert (E1 : dot (rf1 (laue_factors (mv A k) (mv A a))) (mv A G) = dot (rf1 (laue_factors k a)) G).
  { cbn [laue_factors rf1]. rewrite !(dot_mv_T (mT _)), !mT_mT, K. now apply rotation_dot. }
  assert (E2 : dot (rf2 (laue_factors (mv A k) (mv A a))) (mv A G) = dot (rf2 (laue_factors k a)) G).
  { cbn [laue_factors rf2]. rewrite !(dot_mv_T (mT _)), !mT_mT.
    rewrite !madd_I. unfold rod_K2. rewrite !mv_mm, !K, <- mv_add. now apply rotation_dot. }
  assert (E3 : normsq (mv A G) = normsq G) by (apply (rotation_dot A G G HA)).
  unfold laue_candidates. rewrite E0, E1, E2, E3. reflexivity.
Qed.
Definition turn_ev (e : event) : event := Event (ev_grain e) (ev_plane e) (ev_time e) (mv A (ev_G e)).
Lemma mapi_from_map {X Y Z} (f : nat -> Y -> Z) (g : X -> Y) l : forall i, mapi_from i f (map g l) = mapi_from i (fun k x => f k (g x)) l.
Proof. induction l as [|x l IH]; intros i; cbn [map mapi_from]; [reflexivity|]. now rewrite IH. Qed.
Lemma mapi_from_ext {X Y} (f g : nat -> X -> Y) l : (forall k x, f k x = g k x) -> forall i, mapi_from i f l = mapi_from i g l.
Proof. intros H. induction l as [|x l IH]; intros i; cbn [mapi_from]; [reflexivity|]. now rewrite H, IH. Qed.
Lemma hits_turn (sel sel' : vec -> num) G0 : (forall G, sel' (mv A G) = sel G) -> MLaue.hits sel' (map (map (mv A)) G0) = MLaue.hits sel G0.
Proof.
  intros H. unfold MLaue.hits, mapi. rewrite mapi_from_map. f_equal. apply mapi_from_ext. intros k row. unfold hits_row, mapi. rewrite mapi_from_map. f_equal.
  apply mapi_from_ext. intros j G. now rewrite H.
Qed.
Definition rmap {X Y} (f : X -> Y) (r : result X) : result Y := match r with Ok x => Ok (f x) | Err e => Err e end.
Lemma traverse_rmap {X Y Z} (f : X -> result Y) (f' : X -> result Z) (g : Y -> Z) l : (forall x, f' x = rmap g (f x)) -> traverse f' l = rmap (map g) (traverse f l).
Proof.
  intros H. induction l as [|x l IH]; [reflexivity|]. cbn [traverse]. rewrite H, IH. destruct (f x); [|reflexivity]. cbn [rmap bind]. destruct (traverse f l); reflexivity.
Qed.
Lemma find_turn k a w G0 : find_solutions (laue_factors (mv A k) (mv A a)) w (map (map (mv A)) G0) = rmap (map turn_ev) (find_solutions (laue_factors k a) w G0).
Proof.
  unfold find_solutions. rewrite !(hits_turn (fun G => fst (laue_candidates (laue_factors k a) w G))), !(hits_turn (fun G => snd (laue_candidates (laue_factors k a) w G)))
    by (intros; now rewrite cand_turn).
  apply traverse_rmap. intros h. unfold gather_G. rewrite nth_error_map. destruct (nth_error G0 (h_grain h)) as [row|]; cbn [option_map]; [|reflexivity].
  rewrite nth_error_map. destruct (nth_error row (h_plane h)); reflexivity.
Qed.

(** ** The table *)
Definition turn10 (r : list R) : list R := firstn 7 r ++ vlist (mv A (rvec r 7)).
Lemma peak_row_turn grains i planes ev : peak_row10 grains i planes (turn_ev ev) = rmap turn10 (peak_row10 grains i planes ev).
Proof.
  unfold peak_row10. cbn [turn_ev ev_grain ev_plane ev_time ev_G]. destruct (nth_error grains (ev_grain ev)); [|reflexivity].
  destruct (nth_error planes (ev_plane ev)) as [[h sf]|]; [|reflexivity]. cbn [rmap]. f_equal.
Qed.
Lemma traverse_map {X Y Z} (f : Y -> result Z) (g : X -> Y) l : traverse f (map g l) = traverse (fun x => f (g x)) l.
Proof. induction l as [|x l IH]; [reflexivity|]. cbn [map traverse]. now rewrite IH. Qed.
Lemma bind_rmap {X Y Z} (f : X -> Y) (r : result X) (k : Y -> result Z) : bind (rmap f r) k = bind r (fun x => k (f x)).
Proof. destruct r; reflexivity. Qed.
Lemma rmap_bind {X Y Z} (f : Y -> Z) (r : result X) (k : X -> result Y) : rmap f (bind r k) = bind r (fun x => rmap f (k x)).
Proof. destruct r; reflexivity. Qed.
Lemma bind_ext {X Y} (r : result X) (k k' : X -> result Y) : (forall x, k x = k' x) -> bind r k = bind r k'.
Proof. intros H. destruct r; cbn [bind]; auto. Qed.
Lemma gather_rmap {X Y} (f : X -> Y) l idx : gather (map f l) idx = rmap (map f) (gather l idx).
Proof. rewrite gather_map. destruct (gather l idx); reflexivity. Qed.
Lemma phase_rows_turn p p2 k a w i ph : moved_sample A t p p2 ->
  phase_rows p2 (laue_factors (mv A k) (mv A a)) w i ph = rmap (map turn10) (phase_rows p (laue_factors k a) w i ph).
Proof.
  intros (HU & _ & _ & _ & _ & HB & HM & _). unfold phase_rows. rewrite HU, HB, HM. destruct (pc_map p) as [|l]; [reflexivity|]. cbv zeta.
  rewrite rmap_bind. apply bind_ext. intros planes. rewrite gather_rmap, bind_rmap, rmap_bind. apply bind_ext. intros us.
  rewrite rmap_bind. apply bind_ext. intros bs.
  assert (E : map (fun ub => map (fun h : vec * R => get_G (fst ub) (snd ub) (fst h)) planes) (combine (map (mm A) us) bs) =
    map (map (mv A)) (map (fun ub => map (fun h : vec * R => get_G (fst ub) (snd ub) (fst h)) planes) (combine us bs))).
  { rewrite <- (map_id bs) at 1. rewrite combine_map, !map_map. apply map_ext. intros (u & B). cbn [fst snd]. rewrite map_map. apply map_ext. intros h.
    unfold get_G. rewrite !mv_mm. reflexivity. }
  rewrite E, find_turn, bind_rmap, rmap_bind. apply bind_ext. intros evs. rewrite traverse_map.
  apply traverse_rmap. intros ev. apply peak_row_turn.
Qed.
Lemma rows10_turn p p2 phs k a w : moved_sample A t p p2 ->
  rows10 p2 phs (laue_factors (mv A k) (mv A a)) w = rmap (map turn10) (rows10 p phs (laue_factors k a) w).
Proof.
  intros H. unfold rows10.
  rewrite (traverse_rmap (fun iph => phase_rows p (laue_factors k a) w (fst iph) (snd iph)) (fun iph => phase_rows p2 (laue_factors (mv A k) (mv A a)) w (fst iph) (snd iph)) (map turn10))
    by (intros; now apply phase_rows_turn).
  rewrite bind_rmap, rmap_bind. apply bind_ext. intros parts. cbn [rmap]. now rewrite concat_map.
Qed.
Lemma lorentz_turn z k a kp : lorentz z (mv A k) (mv A a) (mv A kp) = lorentz z k a kp.
Proof.
  unfold lorentz. rewrite rotation_dot, rotation_norm by auto. destruct (ndiv z (Fin (dot k kp)) (Fin (norm k ^ 2))) as [c| | |]; try reflexivity.
  rewrite <- mv_scale, <- mv_sub, rotation_dot, rotation_norm by auto. reflexivity.
Qed.
Lemma polarization_turn pol kp : polarization (mv A pol) (mv A kp) = polarization pol kp.
Proof.
  unfold polarization. rewrite rotation_norm by auto. destruct (Req_EM_T (norm kp) 0); [reflexivity|]. cbv zeta. do 2 f_equal.
  rewrite !V3_scale, <- mv_scale, rotation_dot by auto. reflexivity.
Qed.
Lemma two_theta_turn k kp : two_theta (mv A k) (mv A kp) = two_theta k kp.
Proof.
  unfold two_theta. rewrite !rotation_norm by auto. destruct (Req_EM_T (norm kp) 0); [reflexivity|].
  rewrite !vdiv_scale, <- !mv_scale, rotation_dot by auto. reflexivity.
Qed.
(** The row as seen from the other place. *)
Definition turn (r : list num) : list num :=
  if Nat.leb 19 (List.length r) then
    firstn 7 r ++ map Fin (vlist (mv A (fvec r 7))) ++ map Fin (vlist (mv A (fvec r 10))) ++ map Fin (vlist (mv A (fvec r 13)))
      ++ map Fin (vlist (put A t (fvec r 16))) ++ skipn 19 r
  else r.
Lemma turn_length r : List.length (turn r) = List.length r.
Proof.
  unfold turn. destruct (Nat.leb_spec 19 (List.length r)) as [L|L]; [|reflexivity].
  rewrite !app_length, firstn_length, !map_length, skipn_length. cbn [vlist List.length]. lia.
Qed.
Lemma turn_ncol r j : (j < 7 \/ 19 <= j)%nat -> ncol (turn r) j = ncol r j.
Proof.
  intros J. unfold turn. destruct (Nat.leb_spec 19 (List.length r)) as [L|L]; [|reflexivity]. unfold ncol.
  do 19 (destruct r as [|? r]; [cbn in L; lia|]). clear L. cbn [firstn skipn vlist map app].
  do 19 (destruct j as [|j]; [first [reflexivity | exfalso; lia]|]). reflexivity.
Qed.
Lemma turn_app r x : (19 <= List.length r)%nat -> turn (r ++ x) = turn r ++ x.
Proof.
  intros L. unfold turn. rewrite app_length. destruct (Nat.leb_spec 19 (List.length r + List.length x)); [|lia]. destruct (Nat.leb_spec 19 (List.length r)); [|lia].
  do 19 (destruct r as [|? r]; [cbn in L; lia|]). reflexivity.
Qed.
Lemma full_turn z b b2 m m2 r c v : moved_beam A t b b2 -> moved_motion A t m m2 -> List.length r = 10%nat ->
  full_row z b2 m2 (turn10 r) (put A t c) v = turn (full_row z b m r c v).
Proof.
  intros (B1 & B2 & B3 & _) M L.
  do 10 (destruct r as [|? r]; [discriminate L|]). destruct r; [|discriminate L]. clear L.
  unfold full_row. cbv zeta.
  change (rcol (turn10 _) 6) with r6. change (rcol _ 6) with r6. rewrite B1, B2, B3.
  assert (MX : m_axis m2 = mv A (m_axis m)) by (rewrite M; reflexivity).
  change (rvec (turn10 [r0; r1; r2; r3; r4; r5; r6; r7; r8; r9]) 7) with (mv A (V3 r7 r8 r9)).
  change (rvec [r0; r1; r2; r3; r4; r5; r6; r7; r8; r9] 7) with (V3 r7 r8 r9).
  rewrite (rot_turn m m2 r6 _ M), (move_turn m m2 r6 c M), <- mv_add, MX, lorentz_turn, polarization_turn, two_theta_turn.
  generalize (rot_at m r6 (V3 r7 r8 r9)) (move_at m r6 c). intros G S.
  generalize (vadd G (b_wave_vector b)). intros K. reflexivity.
Qed.
End Frame.
