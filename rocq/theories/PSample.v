(** * Sample-driven projection and the detector border (C71, C73). *)
From Verif Require Import Vec Spec MMotion MLaue MMesh SMesh MStrain MBeam SBeam MPolycrystal SPolycrystal MDetector SDetector MClip SClip.
From Verif Require Import MRender SRender SMacro PLaue PBeam PScattering PPolycrystal3 PDetector PDetector2 PDetector3 PDetector4 PClip PRender PRender2 PRender2b PRenderEx PRender3 PKernel2 PKernel3 PMacro PMacroEx.
Open Scope R_scope.
Local Notation len := List.length.

(** The intersection does not depend on the length of the direction. *)
Lemma intersection_scaled z d k q c zd yd a : built d -> dot k (plane_normal (d_c0 d) (d_c1 d) (d_c2 d)) <> 0 -> 0 < c ->
  get_intersection z d (nfin k) (nfin q) = (Fin zd, Fin yd, a) ->
  exists a', get_intersection z d (nfin (vscale c k)) (nfin q) = (Fin zd, Fin yd, a').
Proof.
  intros Hb Hn Hc. fold (N_of d) in Hn.
  assert (E : dot (vscale c k) (N_of d) = c * dot k (N_of d)) by (generalize (N_of d); intros n; destruct k, n; vunf; ring).
  assert (Hn' : dot (vscale c k) (N_of d) <> 0) by (rewrite E; apply Rmult_integral_contrapositive; split; lra).
  rewrite (intersection_closed z d k q Hb Hn), (intersection_closed z d (vscale c k) q Hb Hn'). cbv zeta.
  assert (Es : svalue d (vscale c k) q = svalue d k q / c) by (unfold svalue; rewrite E; field; lra).
  assert (Er : ray_at q (vscale c k) (svalue d (vscale c k) q) = ray_at q k (svalue d k q)).
  { rewrite Es. set (s := svalue d k q). clearbody s. unfold ray_at. destruct q, k. vext; vunf; field; lra. }
  rewrite Er, Es. destruct (Rltb (svalue d k q) 0) eqn:B; [discriminate|]. apply Rltb_false in B.
  replace (Rltb (svalue d k q / c) 0) with false; [|symmetry; apply Rltb_false; apply Rge_le, Rle_ge; apply Rmult_le_pos; [lra|left; now apply Rinv_0_lt_compat]].
  intros H. inversion H. eexists. reflexivity.
Qed.
(** A point of the lit part that projects onto a complete pixel of the detector is
    credited to that pixel. *)
Lemma pC71_samples_land_in_their_pixel : forall z d vs k q zd yd a i j r0 r1 c0 c1, built d -> 0 < d_pz d -> 0 < d_py d ->
  k <> vzero -> dot k (plane_normal (d_c0 d) (d_c1 d) (d_c2 d)) <> 0 ->
  (forall v, In v vs -> exists x y a', get_intersection z d (nfin k) (nfin v) = (Fin x, Fin y, a')) ->
  in_hull vs q -> get_intersection z d (nfin k) (nfin q) = (Fin zd, Fin yd, a) ->
  projected_box z d vs k = Some (r0, r1, c0, c1) ->
  (0 <= i)%Z -> (0 <= j)%Z -> IZR i * d_pz d <= zd < (IZR i + 1) * d_pz d -> IZR j * d_py d <= yd < (IZR j + 1) * d_py d ->
  (IZR i + 1) * d_pz d <= d_zmax d -> (IZR j + 1) * d_py d <= d_ymax d ->
  in_box r0 r1 c0 c1 i j /\
  sample_cell z d (vdiv k (norm k)) r0 c0 (Z.to_nat (r1 - r0)) (Z.to_nat (c1 - c0)) q = Ok (Z.to_nat (i - r0), Z.to_nat (j - c0)).
Proof.
  intros z d vs k q zd yd a i j r0 r1 c0 c1 Hb Pz Py Hk Hn Hv Hq Hh Hbox Hi Hj Bi Bj Ei Ej.
  assert (Z0 : 0 <= IZR i * d_pz d) by (apply Rmult_le_pos; [now apply IZR_le|lra]).
  assert (Y0 : 0 <= IZR j * d_py d) by (apply Rmult_le_pos; [now apply IZR_le|lra]).
  destruct (pC35_box_covers_projection z d vs k q zd yd a Hb Pz Py Hv Hq Hh) as (b0 & b1 & b2 & b3 & Hbox' & C); try lra.
  rewrite Hbox in Hbox'. inversion Hbox'; subst b0 b1 b2 b3; clear Hbox'.
  destruct (C i j Bi Bj) as (C1 & C2 & C3 & C4). specialize (C3 Ei). specialize (C4 Ej).
  split; [split; lia|]. pose proof (norm_pos _ Hk) as Pk.
  assert (Ed : vdiv k (norm k) = vscale (/ norm k) k) by (unfold vdiv; set (n := norm k); clearbody n; destruct k; vext; vunf; unfold Rdiv; ring).
  destruct (intersection_scaled z d k q (/ norm k) zd yd a Hb Hn) as (a' & Hh'); [now apply Rinv_0_lt_compat|exact Hh|].
  unfold sample_cell. rewrite Ed, Hh'. unfold sample_index.
  assert (T : forall v p n, 0 < p -> (0 <= n)%Z -> IZR n * p <= v < (IZR n + 1) * p -> ztrunc (v / p) = n).
  { intros v p n Hp Hn' Hv'. apply ztrunc_eq; auto. split.
    - apply Rmult_le_reg_r with p; auto. unfold Rdiv. rewrite Rmult_assoc, Rinv_l by lra. lra.
    - apply Rmult_lt_reg_r with p; auto. unfold Rdiv. rewrite Rmult_assoc, Rinv_l by lra. lra. }
  rewrite (T zd (d_pz d) i), (T yd (d_py d) j) by auto. rewrite !wrap_in by lia. reflexivity.
Qed.
(** A lit part that sticks out of the detector: with a box of two to four pixels, one
    sample point beyond the last pixel is enough to make rendering raise IndexError. *)
Lemma pC71_border_crash_refuted : exists d pd vs eqs, built d /\ fresh pd /\
  forall e hl, re_hull e vs WholeBody = Ok hl -> hl = Hull vs eqs 2 ->
  (forall q, In q (re_sample e 0 hl 14) -> in_hull vs q) -> (exists q, In q (re_sample e 0 hl 14) /\ 24 < vz q) ->
  render e d pd 1 "macro" None 1 = Err IndexError.
Proof.
  destruct big_beam as (b & _ & _ & Hin). destruct (shifted_world 4 20) as (me & _ & Hc & He).
  exists (flat 10 8 3 1 (2/100) 1), (spot_table (lone 8 23 2) me b), (shifted_corners 4 20), [].
  split; [apply flat_built; [lra|lia]|]. split; [apply spot_fresh|]. intros e hl Hh -> Hs (q & Hq & Hqz).
  pose proof (big_contains 4 20 ltac:(rewrite Rabs_right; lra) ltac:(rewrite Rabs_right; lra) b Hin (re_qhull e) (re_lp e) (re_lsq e)) as HB.
  set (hl := Hull (shifted_corners 4 20) [] 2) in *.
  pose proof (lone_lit me b 8 23 2 1 (shifted_corners 4 20) e hl Hc He eq_refl HB Hh) as HL.
  assert (HF : footprint e (flat 10 8 3 1 (2/100) 1) (projected_table 1 (lone 8 23 2) me b) (spot_out 1 (Spot 8 23 0 1 2 0)) hl 2 3 0 2).
  { unfold footprint. cbn [hl h_corners]. change (kout_of _ _) with (V3 1 0 0).
    rewrite (shifted_box (re_z e) 10 8 3 1 (2/100) 1 4 20 21 24 6 10); try lra; try (rewrite Rmax_right; lra); try (rewrite Rmin_left; lra); try (rewrite Rmin_right; lra).
    unfold axis_box. cbn [fst snd]. rewrite (ztrunc_eq (21/8) 2), (ztrunc_eq (24/8) 3), (ztrunc_eq (6/8) 0), (ztrunc_eq (10/8) 1), (ztrunc_eq (3 * 8 / 8) 3) by (lia || lra).
    reflexivity. }
  pose proof (lone_macro_ok me b 8 23 2 8 3 1 (2/100) 1 e hl 2 3 0 2 ltac:(lra) ltac:(lia) ltac:(lra) ltac:(lra) HL HF) as HR.
  match type of HR with match ?p with _ => _ end => assert (EP : p = Err IndexError) end.
  { unfold project_hull. cbv zeta. change ((3 - 2) * (2 - 0) =? 1)%Z with false. change ((3 - 2) * (2 - 0) <=? 4)%Z with true. cbv iota.
    change (7 * Z.to_nat ((3 - 2) * (2 - 0)))%nat with 14%nat. unfold project_sample_driven.
    assert (ED : vdiv (V3 1 0 0) (norm (V3 1 0 0)) = V3 1 0 0).
    { rewrite (norm_sqrt_eq (V3 1 0 0) 1) by (vunf; lra). unfold vdiv. cbn. vext; cbn; lra. }
    rewrite ED. change (Z.to_nat (3 - 2)) with 1%nat. change (Z.to_nat (2 - 0)) with 2%nat.
    assert (Ecell : forall p, sample_cell (re_z e) (flat 10 8 3 1 (2/100) 1) (V3 1 0 0) 2 0 1 2 p = Err IndexError \/
       exists c, sample_cell (re_z e) (flat 10 8 3 1 (2/100) 1) (V3 1 0 0) 2 0 1 2 p = Ok c).
    { intros p. unfold sample_cell. destruct (get_intersection _ _ _ _) as [[zd yd] a]. unfold sample_index.
      destruct zd; cbn [bind]; auto. destruct (wrap 1 _); cbn [bind]; auto. destruct yd; cbn [bind]; auto. destruct (wrap 2 _); cbn [bind]; eauto. }
    assert (Eq : sample_cell (re_z e) (flat 10 8 3 1 (2/100) 1) (V3 1 0 0) 2 0 1 2 q = Err IndexError).
    { pose proof (Hs q Hq) as Hqh.
      assert (Hx : vx q <= 7). { pose proof (hull_halfspace _ _ (HS (V3 1 0 0) (-7)) Hqh) as P. cbn [hs_n hs_d] in P.
        assert (dot (V3 1 0 0) q + -7 <= 0); [|revert H; destruct q; vunf; lra]. apply P.
        intros v Hv. unfold shifted_corners, ex_coord in Hv. cbn [map In] in Hv. destruct Hv as [<-|[<-|[<-|[<-|[]]]]]; vunf; lra. }
      assert (Hz : vz q <= 27). { pose proof (hull_halfspace _ _ (HS (V3 0 0 1) (-27)) Hqh) as P. cbn [hs_n hs_d] in P.
        assert (dot (V3 0 0 1) q + -27 <= 0); [|revert H; destruct q; vunf; lra]. apply P.
        intros v Hv. unfold shifted_corners, ex_coord in Hv. cbn [map In] in Hv. destruct Hv as [<-|[<-|[<-|[<-|[]]]]]; vunf; lra. }
      destruct q as [x y w]. cbn [vx vz] in *. unfold sample_cell. rewrite flat_hit_from by lra. unfold sample_index. cbn [flat d_pz].
      rewrite (ztrunc_eq (w / 8) 3) by (lia || lra). reflexivity. }
    revert Hq. generalize (re_sample e 0 hl 14). intros l Hq.
    assert (T : traverse (sample_cell (re_z e) (flat 10 8 3 1 (2/100) 1) (V3 1 0 0) 2 0 1 2) l = Err IndexError).
    { induction l as [|p l IH]; [destruct Hq|]. cbn [traverse]. destruct Hq as [->|Hq]; [rewrite Eq; reflexivity|].
      destruct (Ecell p) as [->|(c & ->)]; [reflexivity|]. cbn [bind]. now rewrite IH. }
    rewrite T. reflexivity. }
  rewrite EP in HR. exact HR.
Qed.
(** Below the first row the index is negative: it wraps to the other end of the box, so
    material projecting outside the detector is credited to an unrelated pixel. *)
Lemma pC71_wraps_around_refuted : exists d vs q r0 r1 c0 c1 a, built d /\ in_hull vs q /\
  projected_box false d vs (V3 1 0 0) = Some (r0, r1, c0, c1) /\ (1 < (r1 - r0) * (c1 - c0) <= 4)%Z /\
  get_intersection false d (nfin (V3 1 0 0)) (nfin q) = (Fin (-3), Fin 5, a) /\
  sample_cell false d (V3 1 0 0) r0 c0 (Z.to_nat (r1 - r0)) (Z.to_nat (c1 - c0)) q = Ok (1%nat, 0%nat).
Proof.
  exists (flat 10 (29/10) 3 1 (2/100) 1), (shifted_corners 1 (-4)), (V3 3 5 (-3)), 0%Z, 2%Z, 1%Z, 3%Z, (Fin 0).
  split; [apply flat_built; [lra|lia]|]. split.
  { exists [0; 1; 0; 0]. unfold shifted_corners, ex_coord. cbn [map]. split; [reflexivity|]. split; [intros w [<-|[<-|[<-|[<-|[]]]]]; lra|].
    split; [unfold sum_list; simpl; lra|]. cbn. vext; vunf; lra. }
  split.
  { rewrite (shifted_box false 10 (29/10) 3 1 (2/100) 1 1 (-4) 0 3 3 7); try lra; try (rewrite Rmax_left; lra); try (rewrite Rmax_right; lra); try (rewrite Rmin_left; lra).
    unfold axis_box. cbn [fst snd]. rewrite (ztrunc_eq (0/(29/10)) 0), (ztrunc_eq (3/(29/10)) 1), (ztrunc_eq (7/(29/10)) 2), (ztrunc_eq (3 * (29/10) / (29/10)) 3) by (lia || lra).
    reflexivity. }
  split; [lia|]. split; [apply flat_hit_from; lra|]. unfold sample_cell. rewrite flat_hit_from by lra. unfold sample_index. cbn [flat d_pz d_py].
  rewrite (ztrunc_eq (5/(29/10)) 1) by (lia || lra).
  assert (E : ztrunc (-3/(29/10)) = (-1)%Z).
  { unfold ztrunc. destruct (Rlt_dec _ 0) as [_|N]; [|exfalso; apply N; lra]. apply ceil_eq. lra. }
  rewrite E. reflexivity.
Qed.
(** The hypotheses of the positive statement are met. *)
Lemma xC71_inside : exists d vs q i j r0 r1 c0 c1 a, built d /\ in_hull vs q /\
  projected_box false d vs (V3 1 0 0) = Some (r0, r1, c0, c1) /\ get_intersection false d (nfin (V3 1 0 0)) (nfin q) = (Fin 13, Fin 14, a) /\
  (forall v, In v vs -> exists x y a', get_intersection false d (nfin (V3 1 0 0)) (nfin v) = (Fin x, Fin y, a')) /\
  dot (V3 1 0 0) (plane_normal (d_c0 d) (d_c1 d) (d_c2 d)) <> 0 /\
  IZR i * d_pz d <= 13 < (IZR i + 1) * d_pz d /\ IZR j * d_py d <= 14 < (IZR j + 1) * d_py d /\ (IZR i + 1) * d_pz d <= d_zmax d /\ (IZR j + 1) * d_py d <= d_ymax d.
Proof.
  exists (flat 10 4 9 1 (2/100) 1), (shifted_corners 8 12), (V3 7 14 13), 3%Z, 3%Z, 3%Z, 5%Z, 2%Z, 4%Z, (Fin 0).
  split; [apply flat_built; [lra|lia]|]. split.
  { exists [1; 0; 0; 0]. unfold shifted_corners, ex_coord. cbn [map]. split; [reflexivity|]. split; [intros w [<-|[<-|[<-|[<-|[]]]]]; lra|].
    split; [unfold sum_list; simpl; lra|]. cbn. vext; vunf; lra. }
  split.
  { rewrite (shifted_box false 10 4 9 1 (2/100) 1 8 12 13 19 10 14); try lra; try (rewrite Rmax_right; lra); try (rewrite Rmin_left; lra).
    unfold axis_box. cbn [fst snd]. rewrite (ztrunc_eq (13/4) 3), (ztrunc_eq (19/4) 4), (ztrunc_eq (10/4) 2), (ztrunc_eq (14/4) 3), (ztrunc_eq (9 * 4 / 4) 9) by (lia || lra).
    reflexivity. }
  split; [apply flat_hit_from; lra|]. split.
  { intros v Hv. unfold shifted_corners, ex_coord in Hv. cbn [map In] in Hv.
    assert (V : forall x y h, vadd (V3 x y h) (V3 0 8 12) = V3 x (8 + y) (12 + h)) by (intros; vext; vunf; ring). rewrite !V in Hv.
    destruct Hv as [<-|[<-|[<-|[<-|[]]]]]; rewrite flat_hit_from by lra; eauto. }
  split; [unfold plane_normal; cbn [flat d_c0 d_c1 d_c2]; vunf; lra|].
  cbn [flat d_pz d_py d_zmax d_ymax]. repeat split; lra.
Qed.
