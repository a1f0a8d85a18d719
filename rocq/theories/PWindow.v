(** * Two detectors on the same pixel grid (C96): rays, rows and spots. *)
From Verif Require Import Vec Spec MMotion MLaue MMesh MScattering MStrain MBeam SBeam MPolycrystal SPolycrystal MDetector MClip MRender SRender SWindow.
From Verif Require Import PMotion PLaue PMesh PBeam PStrain PPolycrystal PPolycrystal2 PDetector PDetector2 PDetector3 PRender PRender2 PRender3 PEvents PEnd2 PFrame PFrame2 PFrame3 PFrame4.
From Verif Require Import SDetector.
Open Scope list_scope. Open Scope R_scope.

(** ** Vector algebra *)
Lemma al_cross a b u v : cross (vscale a u) (vscale b v) = vscale (a * b) (cross u v). Proof. veq. Qed.
Lemma al_normal c u v x y o : dot (vsub (vadd c (vadd (vscale x u) (vscale y v))) o) (cross u v) = dot (vsub c o) (cross u v).
Proof. vdes. vunf. cbn. ring. Qed.
Lemma al_coord p c u v x y w : dot (vsub p (vadd c (vadd (vscale x u) (vscale y v)))) w = dot (vsub p c) w - x * dot u w - y * dot v w.
Proof. vdes. vunf. cbn. ring. Qed.
Lemma al_ss a b v : vscale a (vscale b v) = vscale (a * b) v. Proof. veq. Qed.
Lemma norm_sq u : dot u u = norm u * norm u.
Proof. unfold norm, normsq. rewrite sqrt_def; [reflexivity|]. vdes. vunf. cbn. nra. Qed.
Lemma hat_scale' a v : 0 < a -> vscale (/ norm (vscale a v)) (vscale a v) = vscale (/ norm v) v.
Proof.
  intros Ha. rewrite norm_scale, Rabs_right by lra. rewrite al_ss. f_equal. destruct (Req_dec (norm v) 0) as [->|N]; [rewrite Rmult_0_r, Rinv_0; ring|field; lra].
Qed.
Lemma sub_nonzero a b : a <> b -> 0 < norm (vsub a b).
Proof. intros H. now apply norm_pos, apart. Qed.
Lemma fin_inj x y : Fin x = Fin y -> x = y. Proof. congruence. Qed.

Section Grid.
Variables (n k : Z) (d d2 : detector).
Hypothesis G : same_grid n k d d2.
Lemma grid_built : built d /\ built d2. Proof. destruct G as (A & B & _). auto. Qed.
Lemma grid_normal : exists c, 0 < c /\ N_of d2 = vscale c (N_of d).
Proof.
  destruct G as (_ & _ & _ & _ & _ & (a & b & Ha & Hb & E1 & E2) & _). exists (a * b). split; [now apply Rmult_lt_0_compat|].
  unfold N_of, plane_normal. rewrite E1, E2. apply al_cross.
Qed.
Lemma grid_hats : zhat_of d2 = zhat_of d /\ yhat_of d2 = yhat_of d.
Proof.
  destruct G as (_ & _ & _ & _ & _ & (a & b & Ha & Hb & E1 & E2) & _). unfold zhat_of, yhat_of, dist. rewrite E1, E2. split; now apply hat_scale'.
Qed.
Lemma hats_unit : dot (zhat_of d) (zhat_of d) = 1 /\ dot (yhat_of d) (yhat_of d) = 1 /\ dot (yhat_of d) (zhat_of d) = 0 /\ dot (zhat_of d) (yhat_of d) = 0.
Proof.
  destruct G as (_ & _ & Rr & N2 & N1 & _). unfold rectangular in Rr. unfold zhat_of, yhat_of, dist.
  pose proof (sub_nonzero _ _ N2) as P2. pose proof (sub_nonzero _ _ N1) as P1. rewrite !dot_scale_l, !dot_scale_r, (dot_comm (vsub (d_c1 d) (d_c0 d)) (vsub (d_c2 d) (d_c0 d))), Rr, !norm_sq.
  repeat split; field; lra.
Qed.
Lemma grid_corner : d_c0 d2 = vadd (d_c0 d) (vadd (vscale (IZR n * d_pz d) (zhat_of d)) (vscale (IZR k * d_py d) (yhat_of d))).
Proof. destruct G as (_ & _ & _ & _ & _ & _ & E & _). rewrite E. unfold surface_point, zhat_of, yhat_of. now rewrite !al_ss. Qed.
Lemma grid_svalue v o : dot v (N_of d) <> 0 -> svalue d2 v o = svalue d v o.
Proof.
  intros Hv. unfold svalue. destruct grid_normal as (c & Hc & ->). rewrite !dot_scale_r.
  destruct G as (_ & _ & _ & _ & _ & _ & E & _). rewrite E. unfold surface_point, N_of, plane_normal. unfold N_of, plane_normal in Hv. rewrite al_normal. field. split; [exact Hv|lra].
Qed.
Lemma grid_incident v : dot v (N_of d) <> 0 -> incident_of d2 v = incident_of d v.
Proof.
  intros Hv. unfold incident_of. destruct grid_normal as (c & Hc & ->). rewrite dot_scale_r, norm_scale, Rabs_right by lra.
  assert (HN : N_of d <> vzero) by (intros E; apply Hv; rewrite E; vdes; vunf; ring).
  assert (Hv0 : v <> vzero) by (intros E; apply Hv; rewrite E; generalize (N_of d); intros; vdes; vunf; ring).
  apply norm_neq0 in HN, Hv0. do 3 f_equal. field. repeat split; auto. lra.
Qed.
Lemma grid_parallel v : dot v (N_of d) = 0 -> dot v (N_of d2) = 0.
Proof. intros H. destruct grid_normal as (c & Hc & ->). rewrite dot_scale_r, H. ring. Qed.
Lemma grid_parallel' v : dot v (N_of d) <> 0 -> dot v (N_of d2) <> 0.
Proof. intros H. destruct grid_normal as (c & Hc & ->). rewrite dot_scale_r. intros E. apply Rmult_integral in E as [E|E]; lra. Qed.

(** One ray on both detectors: it misses the plane for both, or the detector coordinates differ by n and k pixels. *)
Lemma grid_ray z v o : let '(zd, yd, a) := get_intersection z d (nfin v) (nfin o) in let '(zd2, yd2, a2) := get_intersection z d2 (nfin v) (nfin o) in
  (det_contains d zd yd = false /\ det_contains d2 zd2 yd2 = false) \/
  exists x y, zd = Fin x /\ yd = Fin y /\ zd2 = Fin (x - IZR n * d_pz d) /\ yd2 = Fin (y - IZR k * d_py d) /\ a2 = a.
Proof.
  destruct grid_built as (B & B2). destruct (Req_EM_T (dot v (N_of d)) 0) as [Hv|Hv].
  - pose proof (parallel_no_hit z d v o B Hv) as F. pose proof (parallel_no_hit z d2 v o B2 (grid_parallel v Hv)) as F2. cbv zeta in F, F2.
    destruct (get_intersection z d (nfin v) (nfin o)) as [[zd yd] a]. destruct (get_intersection z d2 (nfin v) (nfin o)) as [[zd2 yd2] a2]. left. auto.
  - rewrite (intersection_closed z d v o B Hv), (intersection_closed z d2 v o B2 (grid_parallel' v Hv)). cbv zeta. rewrite (grid_svalue v o Hv), (grid_incident v Hv).
    destruct (Rltb (svalue d v o) 0); [left; split; reflexivity|]. right. eexists. eexists. split; [reflexivity|]. split; [reflexivity|].
    destruct grid_hats as (-> & ->). destruct hats_unit as (U1 & U2 & U3 & U4). rewrite grid_corner, !al_coord, U1, U2, U3, U4. repeat split; f_equal; ring.
Qed.
Lemma grid_intensity r : intensity d2 r = intensity d r.
Proof. destruct G as (_ & _ & _ & _ & _ & _ & _ & _ & _ & _ & L & P & S). unfold intensity. now rewrite L, P, S. Qed.

(** One row of a peak table on both detectors. *)
Definition pair_ok (r e1 e2 : list num) : Prop := exists x y a f i,
  e1 = r ++ [Fin x; Fin y; a; f; i] /\ e2 = r ++ [Fin (x - IZR n * d_pz d); Fin (y - IZR k * d_py d); a; f; i].
Lemma grid_row z fr r : good_row r ->
  (keepb z d fr r = false /\ keepb z d2 fr r = false) \/
  (pair_ok r (extend z d fr r) (extend z d2 fr r) /\ exists x y ok,
     ncol (extend z d fr r) 25 = Fin x /\ ncol (extend z d fr r) 26 = Fin y /\
     (keepb z d fr r = true <-> on_panel d x y /\ ok = true) /\
     (keepb z d2 fr r = true <-> on_panel d2 (x - IZR n * d_pz d) (y - IZR k * d_py d) /\ ok = true)).
Proof.
  intros (L & (v & Ev) & (o & Eo)). pose proof (grid_ray z v o) as H. rewrite <- Ev, <- Eo in H.
  destruct (get_intersection z d (row_nvec r 13) (row_nvec r 16)) as [[zd yd] a] eqn:E. destruct (get_intersection z d2 (row_nvec r 13) (row_nvec r 16)) as [[zd2 yd2] a2] eqn:E2.
  rewrite (keepb_fresh z d fr r zd yd a L E), (keepb_fresh z d2 fr r zd2 yd2 a2 L E2), grid_intensity.
  destruct H as [(H1 & H2)|(x & y & -> & -> & -> & -> & ->)]; [left; now rewrite H1, H2|]. right. rewrite !extend_eq by lia. rewrite E, E2, grid_intensity. split.
  - repeat eexists.
  - exists x, y, (is_finite (intensity d r) && nlt (Fin 0) (intensity d r))%bool. unfold ncol. rewrite !app_nth2 by lia. rewrite L. cbn [Nat.sub nth]. split; [reflexivity|]. split; [reflexivity|].
    rewrite !andb_true_iff. rewrite !pC29_contains_iff.
    split; (split; [intros ((x0 & y0 & Ex & Ey & I) & K); split; auto; assert (x0 = _) by (symmetry; apply fin_inj; exact Ex); assert (y0 = _) by (symmetry; apply fin_inj; exact Ey); subst; exact I
                   |intros (I & K); split; auto; do 2 eexists; split; [reflexivity|]; split; [reflexivity|]; exact I]).
Qed.
End Grid.
