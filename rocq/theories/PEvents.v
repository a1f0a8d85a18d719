(** * Proofs: outcomes of diffract in terms of physical events (C13). *)
From Verif Require Import Vec Spec MMotion PMotion MLaue PLaue MMesh SMesh PMesh MScattering SScattering PScattering.
From Verif Require Import MStrain SStrain PStrain MBeam SBeam PBeam MPolycrystal SPolycrystal SEvents PPolycrystal PPolycrystal2 PPolycrystal3.
Open Scope R_scope.
Local Notation len := List.length.

(** ** Candidate times of one reflection *)
Lemma solves_iff k a w T o m G t : make_motion a w T o = Ok m -> unit a ->
  solves (laue_factors k (m_axis m)) (m_angle m) G t <->
  (0 <= t <= 1 /\ laue_condition k (rot_at m t G) /\ ~ laue_condition k (right_handed_rotation a PI G)).
Proof.
  intros Hm U. split.
  - intros H. pose proof (solves_laue k a w T o m G t Hm U H) as HL. destruct H as (Ht & Hc). split; auto. split; auto.
    apply make_motion_ok_iff in Hm as (W & _ & ->). cbn [m_axis m_angle] in *. intros HP.
    rewrite <- rod_spec in HP by auto. apply laue_condition_iff in HP; auto. rewrite cos_PI, sin_PI in HP.
    rewrite candidates_closed in Hc by lra. destruct (Req_EM_T _ 0) as [|N]; [destruct Hc; discriminate|]. apply N. lra.
  - intros (Ht & HL & HP). split; auto. apply make_motion_ok_iff in Hm as (W & _ & ->). cbn [m_axis m_angle] in *.
    unfold rot_at in HL. cbn [m_axis m_angle] in HL. apply candidate_complete; auto.
    + intros E. apply HP. rewrite <- rod_spec by auto. apply laue_condition_iff; auto. rewrite cos_PI, sin_PI. lra.
    + apply laue_condition_iff; auto.
Qed.
Lemma in01_spec x : in01 x = 1%nat /\ (exists t, x = Fin t /\ 0 <= t <= 1) \/ in01 x = 0%nat /\ (forall t, x = Fin t -> ~ 0 <= t <= 1).
Proof.
  unfold in01. destruct (in_unit_interval x) as [t|] eqn:E.
  - left. split; auto. exists t. now apply in_unit_spec.
  - right. split; auto. intros t Hx Ht. assert (in_unit_interval x = Some t) by now apply in_unit_spec. congruence.
Qed.
Lemma times_none b m G : (forall t, ~ solves (laue_factors (b_wave_vector b) (m_axis m)) (m_angle m) G t) -> reflection_times b m G = 0%nat.
Proof.
  intros H. unfold reflection_times. cbv zeta. set (c := laue_candidates _ _ _) in *.
  destruct (in01_spec (fst c)) as [[_ (t & E & Ht)]|[-> _]]; [exfalso; apply (H t); split; auto|].
  destruct (in01_spec (snd c)) as [[_ (t & E & Ht)]|[-> _]]; [exfalso; apply (H t); split; auto|]. reflexivity.
Qed.
Lemma times_some b m G t : solves (laue_factors (b_wave_vector b) (m_axis m)) (m_angle m) G t -> (1 <= reflection_times b m G)%nat.
Proof.
  intros (Ht & H). unfold reflection_times. cbv zeta. set (c := laue_candidates _ _ _) in *.
  destruct (in01_spec (fst c)) as [[-> _]|[_ N1]]; [lia|]. destruct (in01_spec (snd c)) as [[-> _]|[_ N2]]; [lia|].
  destruct H as [E|E]; [exfalso; apply (N1 t)|exfalso; apply (N2 t)]; auto.
Qed.
Lemma times_two b m G t t' : solves (laue_factors (b_wave_vector b) (m_axis m)) (m_angle m) G t -> solves (laue_factors (b_wave_vector b) (m_axis m)) (m_angle m) G t' ->
  t <> t' -> (2 <= reflection_times b m G)%nat.
Proof.
  intros (Ht & H) (Ht' & H') Hne. unfold reflection_times. cbv zeta. set (c := laue_candidates _ _ _) in *. clearbody c.
  destruct c as [c1 c2]. cbn [fst snd] in *.
  assert ((c1 = Fin t /\ c2 = Fin t') \/ (c1 = Fin t' /\ c2 = Fin t)) as K.
  { destruct H as [->| ->], H' as [E|E]; try (inversion E; contradiction); auto. }
  assert (I : forall u, 0 <= u <= 1 -> in01 (Fin u) = 1%nat).
  { intros u Hu. destruct (in01_spec (Fin u)) as [[-> _]|[_ N]]; auto. exfalso. apply (N u); auto. }
  destruct K as [[-> ->]|[-> ->]]; rewrite !I by auto; lia.
Qed.
Lemma grazing_value k a th G : unit a -> dot k (cross a (mv (rod_matrix a th) G)) =
  - rho0 (laue_factors k a) G * sin th + rho1 (laue_factors k a) G * cos th.
Proof.
  intros U. unfold rho0, rho1, laue_factors; cbn [rf0 rf1].
  unfold rod_matrix, rod_K2. rewrite !dot_mv_T, !mT_mT, !mv_madd, !mv_mscale, !mv_mm, !mv_I, !rod_K_cross.
  assert (C3 : cross a (cross a (cross a G)) = vneg (cross a G)).
  { assert (E : dot a a = 1) by (unfold unit in U; pose proof (norm_sq a) as Q; rewrite U in Q; unfold normsq in Q; lra).
    transitivity (vscale (- dot a a) (cross a G)); [veq|]. rewrite E. veq. }
  assert (L : forall u v, cross a (vadd u v) = vadd (cross a u) (cross a v)) by (intros; veq).
  assert (S : forall s u, cross a (vscale s u) = vscale s (cross a u)) by (intros; veq).
  rewrite ?L, ?S, ?C3, ?L, ?S, ?C3. generalize (cross a (cross a G)) (cross a G). intros u v. vdes; vunf; ring.
Qed.
(** A reflection with exactly one time: counted twice exactly when it is grazing. *)
Lemma times_single b a w T o m G t : make_motion a w T o = Ok m -> unit a ->
  solves (laue_factors (b_wave_vector b) (m_axis m)) (m_angle m) G t ->
  (forall t', solves (laue_factors (b_wave_vector b) (m_axis m)) (m_angle m) G t' -> t' = t) ->
  (grazing (b_wave_vector b) a (rot_at m t G) -> reflection_times b m G = 2%nat) /\
  (~ grazing (b_wave_vector b) a (rot_at m t G) -> reflection_times b m G = 1%nat).
Proof.
  intros Hm U (Ht & Hs) Huniq. apply make_motion_ok_iff in Hm as (W & _ & ->). unfold rot_at, grazing in *. cbn [m_axis m_angle] in *.
  rewrite grazing_value by auto. unfold reflection_times. cbv zeta. cbn [m_axis m_angle].
  set (k := b_wave_vector b) in *. set (f := laue_factors k a) in *. unfold solves in Huniq. rewrite (candidates_closed f w G) in * by lra.
  destruct (Req_EM_T _ 0) as [E|E]; [destruct Hs; discriminate|].
  destruct (Rlt_dec (cand_disc f G) 0) as [D|D]; [destruct Hs; discriminate|]. cbn [fst snd] in *.
  set (q := sqrt (cand_disc f G)) in *. assert (Hq : q * q = cand_disc f G) by (apply sqrt_sqrt; lra). pose proof (sqrt_pos (cand_disc f G)) as Hq0. fold q in Hq0.
  set (c := cand_a f G) in *.
  assert (I : forall u, 0 <= u <= 1 -> in01 (Fin u) = 1%nat).
  { intros u Hu. destruct (in01_spec (Fin u)) as [[-> _]|[_ N]]; auto. exfalso. apply (N u); auto. }
  (* s = tan of the half angle *)
  assert (exists s, w * t = 2 * atan s /\ (s = - c + q \/ s = - c - q)) as (s & Es & Hsq).
  { destruct Hs as [Hs|Hs]; inversion Hs; [exists (- c + q)|exists (- c - q)]; (split; [field; lra|auto]). }
  assert (Hroot : (s + c) * (s + c) = cand_disc f G) by (destruct Hsq as [-> | ->]; rewrite <- Hq; ring).
  assert (Hgz : - rho0 f G * sin (w * t) + rho1 f G * cos (w * t) = (rho2 f G - rho0 f G) * (s + c)).
  { rewrite Es, cos_2atan, sin_2atan. assert (P : 0 < 1 + s * s) by nra.
    apply quad_root in Hroot; auto.
    assert (Ec : (rho2 f G - rho0 f G) * c = rho1 f G) by (unfold c, cand_a; field; auto).
    rewrite Rmult_plus_distr_l, Ec. apply (Rmult_eq_reg_r (1 + s * s)); [|lra].
    transitivity (- 2 * rho0 f G * s + rho1 f G * (1 - s * s)); [field; lra|].
    symmetry. transitivity ((- 2 * rho0 f G * s + rho1 f G * (1 - s * s)) + s * ((rho2 f G - rho0 f G) * (s * s) + 2 * rho1 f G * s + (rho0 f G + rho2 f G))); [ring|]. rewrite Hroot. ring. }
  assert (Htv : t = 2 * atan s / w) by (rewrite <- Es; field; lra).
  rewrite Hgz. split.
  - intros H0. apply Rmult_integral in H0 as [?|H0]; [contradiction|].
    assert (Eq : q = 0) by (destruct Hsq as [E1|E1]; lra). rewrite Eq. replace (- c + 0) with s by lra. replace (- c - 0) with s by lra. rewrite <- Htv, I by auto. reflexivity.
  - intros H0. assert (Q0 : q <> 0) by (intros C; apply H0; destruct Hsq as [E1|E1]; rewrite E1, C; ring).
    assert (Inj : forall u v, 2 * atan u / w = 2 * atan v / w -> u = v).
    { intros u v Huv. assert (atan u = atan v) as Ha. { apply (Rmult_eq_compat_r (w / 2)) in Huv. replace (2 * atan u / w * (w / 2)) with (atan u) in Huv by (field; lra). replace (2 * atan v / w * (w / 2)) with (atan v) in Huv by (field; lra). exact Huv. }
      apply (f_equal tan) in Ha. now rewrite !tan_atan in Ha. }
    destruct Hsq as [E1|E1].
    + rewrite <- E1, <- Htv, I by auto. destruct (in01_spec (Fin (2 * atan (- c - q) / w))) as [[_ (u & Eu & Hu)]|[-> _]]; [|reflexivity].
      exfalso. assert (u = t) by (apply Huniq; split; auto). subst u. inversion Eu as [Ev]. rewrite Htv in Ev. apply Inj in Ev. lra.
    + rewrite <- E1, <- Htv, (I t) by auto. destruct (in01_spec (Fin (2 * atan (- c + q) / w))) as [[_ (u & Eu & Hu)]|[-> _]]; [|reflexivity].
      exfalso. assert (u = t) by (apply Huniq; split; auto). subst u. inversion Eu as [Ev]. rewrite Htv in Ev. apply Inj in Ev. lra.
Qed.

(** ** The list of all reflections of a sample *)
Lemma list_sum_cons n l : list_sum (n :: l) = (n + list_sum l)%nat. Proof. reflexivity. Qed.
Lemma list_sum_zero {A} (f : A -> nat) l : (forall x, In x l -> f x = 0%nat) -> list_sum (map f l) = 0%nat.
Proof. intros H. induction l as [|x l IH]; auto. cbn [map]. rewrite list_sum_cons, H by now left. rewrite IH by (intros; apply H; now right). reflexivity. Qed.
Lemma list_sum_ge {A} (f : A -> nat) l x : In x l -> (f x <= list_sum (map f l))%nat.
Proof. induction l as [|y l IH]; [intros []|]. cbn [map]. rewrite list_sum_cons. intros [->|H]; [lia|]. specialize (IH H). lia. Qed.
Lemma list_sum_ge2 {A} (f : A -> nat) l x y : In x l -> In y l -> x <> y -> (f x + f y <= list_sum (map f l))%nat.
Proof.
  intros Hx Hy Hne. induction l as [|z l IH]; [destruct Hx|]. cbn [map]. rewrite list_sum_cons. destruct Hx as [->|Hx], Hy as [->|Hy]; try contradiction.
  - pose proof (list_sum_ge f l y Hy). lia.
  - pose proof (list_sum_ge f l x Hx). lia.
  - specialize (IH Hx Hy). lia.
Qed.
Lemma list_sum_one {A} (f : A -> nat) l x : NoDup l -> In x l -> (forall y, In y l -> y <> x -> f y = 0%nat) -> list_sum (map f l) = f x.
Proof.
  intros Hn Hx H. induction Hn as [|y l Hy Hn IH]; [destruct Hx|]. cbn [map]. rewrite list_sum_cons. destruct Hx as [->|Hx].
  - rewrite list_sum_zero; [lia|]. intros z Hz. apply H; [now right|]. intros ->. contradiction.
  - rewrite (H y); [|now left|intros ->; contradiction]. rewrite IH; auto. intros z Hz. apply H. now right.
Qed.
Lemma list_sum_flat {A B} (f : B -> nat) (g : A -> list B) l : list_sum (map f (flat_map g l)) = list_sum (map (fun a => list_sum (map f (g a))) l).
Proof. induction l as [|a l IH]; auto. cbn [flat_map map]. rewrite map_app, list_sum_app, IH. reflexivity. Qed.
Lemma nodup_flat {A B T} (g : A -> list B) (tag : B -> T) (tagA : A -> T) l : NoDup (map tagA l) -> (forall a, In a l -> NoDup (g a)) ->
  (forall a b, In a l -> In b (g a) -> tag b = tagA a) -> NoDup (flat_map g l).
Proof.
  induction l as [|a l IH]; intros Hn Hg Ht; cbn [flat_map]; [constructor|]. cbn [map] in Hn. inversion Hn as [|? ? Hna Hn']; subst.
  assert (D : forall b, In b (g a) -> ~ In b (flat_map g l)).
  { intros b Hb Hin. apply in_flat_map in Hin as (a' & Ha' & Hb'). apply Hna. assert (E1 := Ht a b (or_introl eq_refl) Hb). assert (E2 := Ht a' b (or_intror Ha') Hb'). rewrite <- E1, E2. now apply in_map. }
  assert (N2 : NoDup (flat_map g l)) by (apply IH; auto; intros; [apply Hg|apply Ht]; auto; now right).
  assert (N1 : NoDup (g a)) by (apply Hg; now left). clear - D N1 N2. induction N1 as [|b bs Hb Nb IH]; cbn [app]; auto. constructor.
  - rewrite in_app_iff. intros [?|?]; [contradiction|]. apply (D b); auto. now left.
  - apply IH. intros c Hc. apply D. now right.
Qed.
Definition planes_j (ph : phase) : list (nat * vec) :=
  match ph_hkl ph with
  | None => []
  | Some hkl => filter (fun jh => match ph_sf ph with None => true | Some s => match nth_error s (fst jh) with Some ab => Rltb (/ 10^6) (fst ab ^ 2 + snd ab ^ 2) | None => false end end)
                  (combine (seq 0 (len hkl)) hkl)
  end.
Lemma planes_j_in ph j h : In (j, h) (planes_j ph) <-> plane_at ph j h.
Proof.
  unfold planes_j, plane_at. destruct (ph_hkl ph) as [hkl|]; [|split; [intros []|intros (? & ? & _); discriminate]].
  rewrite filter_In. rewrite combine_seq_in. cbn [fst]. split.
  - intros [Hj Ht]. exists hkl. split; auto. split; auto. destruct (ph_sf ph) as [s|]; auto. destruct (nth_error s j) as [[re im]|]; [|discriminate].
    exists re, im. split; auto. now apply Rltb_true in Ht.
  - intros (hkl' & E & Hj & Ht). inversion E; subst hkl'. split; auto. destruct (ph_sf ph) as [s|]; auto. destruct Ht as (re & im & Hs & Hlt). rewrite Hs. now apply Rltb_true.
Qed.
Lemma seq_combine_nodup {A} (l : list A) (P : nat * A -> bool) : NoDup (map fst (filter P (combine (seq 0 (len l)) l))).
Proof.
  assert (G : forall s, NoDup (map fst (filter P (combine (seq s (len l)) l))) /\ forall x, In x (filter P (combine (seq s (len l)) l)) -> (s <= fst x)%nat).
  { induction l as [|a l IH]; intros s; cbn [List.length seq combine filter]; [split; [constructor|intros ? []]|].
    destruct (IH (S s)) as [N L]. destruct (P (s, a)).
    - cbn [map fst]. split.
      + constructor; auto. intros Hin. apply in_map_iff in Hin as (x & E & Hx). apply L in Hx. lia.
      + intros x [<-|Hx]; [cbn; lia|]. apply L in Hx. lia.
    - split; auto. intros x Hx. apply L in Hx. lia. }
  apply G.
Qed.
Lemma planes_j_nodup ph : NoDup (map fst (planes_j ph)).
Proof. unfold planes_j. destruct (ph_hkl ph); [apply seq_combine_nodup|constructor]. Qed.
Lemma ok_inj {A} (x y : A) : Ok x = Ok y -> x = y. Proof. congruence. Qed.
Lemma planes_j_used ph planes : used_planes ph = Ok planes -> map snd (planes_j ph) = map fst planes.
Proof.
  unfold used_planes, planes_j. destruct (ph_hkl ph) as [hkl|]; [|discriminate]. destruct (ph_sf ph) as [s|].
  - destruct (Nat.eqb_spec (len s) (len hkl)) as [L|]; [|discriminate]. intros H; apply ok_inj in H; subst planes.
    assert (G : forall hkl s k, len s = len hkl ->
      map snd (filter (fun jh : nat * vec => match nth_error s (fst jh - k) with Some ab => Rltb (/ 10^6) (fst ab ^ 2 + snd ab ^ 2) | None => false end) (combine (seq k (len hkl)) hkl)) =
      map fst (filter (fun hs => Rltb (/ 10^6) (snd hs)) (combine hkl (map (fun ab : R * R => fst ab ^ 2 + snd ab ^ 2) s)))).
    { clear. induction hkl as [|h hkl IH]; intros [|ab s] k L; cbn in L; try discriminate; [reflexivity|]. injection L as L.
      cbn [List.length seq combine filter map fst snd]. rewrite Nat.sub_diag. cbn [nth_error].
      assert (R : filter (fun jh : nat * vec => match nth_error (ab :: s) (fst jh - k) with Some ab => Rltb (/ 10^6) (fst ab ^ 2 + snd ab ^ 2) | None => false end) (combine (seq (S k) (len hkl)) hkl)
            = filter (fun jh : nat * vec => match nth_error s (fst jh - S k) with Some ab => Rltb (/ 10^6) (fst ab ^ 2 + snd ab ^ 2) | None => false end) (combine (seq (S k) (len hkl)) hkl)).
      { apply filter_ext_in. intros [j h'] Hin. apply in_combine_l, in_seq in Hin. cbn [fst]. replace (j - k)%nat with (S (j - S k)) by lia. reflexivity. }
      rewrite R. destruct (Rltb _ _); cbn [map]; rewrite (IH s (S k) L); reflexivity. }
    rewrite <- (G hkl s 0%nat L). f_equal. apply filter_ext_in. intros [j h] _. cbn [fst]. rewrite Nat.sub_0_r. reflexivity.
  - intros H; inversion H; subst planes; clear H. rewrite map_map. cbn [fst]. rewrite map_id.
    assert (F : forall (l : list (nat * vec)), filter (fun _ => true) l = l) by (induction l; cbn; congruence). rewrite F.
    generalize 0%nat. induction hkl as [|h hkl IH]; intros k; cbn [List.length seq combine map snd]; auto. now rewrite IH.
Qed.
Lemma where_eq_nodup l i : NoDup (where_eq l i).
Proof.
  unfold where_eq, mapi. assert (G : forall s, NoDup (List.concat (mapi_from s (fun e v => if Req_EM_T v (INR i) then [e] else []) l)) /\ forall e, In e (List.concat (mapi_from s (fun e v => if Req_EM_T v (INR i) then [e] else []) l)) -> (s <= e)%nat).
  { induction l as [|v l IH]; intros s; cbn [mapi_from List.concat]; [split; [constructor|intros ? []]|]. destruct (IH (S s)) as [N L]. destruct (Req_EM_T v (INR i)) as [Ev|Ev]; cbn [app].
    - split; [constructor; auto; intros Hin; apply L in Hin; lia|]. intros e [<-|He]; [lia|]. apply L in He. lia.
    - split; auto. intros e He. apply L in He. lia. }
  apply G.
Qed.
(** (element, plane number, scattering vector) of every reflection of the sample. *)
Definition element_reflections (p : polycrystal) (ph : phase) (e : nat) : list (nat * nat * vec) :=
  match nth_error (pc_U p) e, nth_error (pc_eB p) e with
  | Some U, Some B => map (fun jh => (e, fst jh, mv U (mv B (snd jh)))) (planes_j ph)
  | _, _ => []
  end.
Definition reflections (p : polycrystal) : list (nat * nat * vec) :=
  flat_map (fun iph => flat_map (element_reflections p (snd iph)) (where_eq (map_values (pc_map p)) (fst iph))) (combine (seq 0 (len (pc_phases p))) (pc_phases p)).
Lemma reflections_in p e j G : In (e, j, G) (reflections p) <->
  exists i ph h, in_phase p e i /\ nth_error (pc_phases p) i = Some ph /\ plane_at ph j h /\ scattering_vector p e h G.
Proof.
  unfold reflections. rewrite in_flat_map. split.
  - intros ((i & ph) & Hi & H). apply combine_seq_in in Hi. cbn [fst snd] in H. apply in_flat_map in H as (e' & He & H). unfold element_reflections in H.
    destruct (nth_error (pc_U p) e') as [U|] eqn:EU; [|destruct H]. destruct (nth_error (pc_eB p) e') as [B|] eqn:EB; [|destruct H].
    apply in_map_iff in H as ((j' & h) & E & Hj). cbn [fst snd] in E.
    assert (e' = e) by congruence. assert (j' = j) by congruence. assert (mv U (mv B h) = G) by congruence. subst e' j' G. clear E.
    exists i, ph, h. split; [now apply where_eq_in in He|]. split; auto. split; [now apply planes_j_in|]. exists U, B. auto.
  - intros (i & ph & h & He & Hi & Hj & U & B & EU & EB & ->). exists (i, ph). split; [now apply combine_seq_in|]. cbn [fst snd].
    apply in_flat_map. exists e. split; [now apply where_eq_in|]. unfold element_reflections. rewrite EU, EB. apply in_map_iff. exists (j, h). split; auto. now apply planes_j_in.
Qed.
Lemma reflections_nodup p : NoDup (reflections p).
Proof.
  unfold reflections. apply (nodup_flat _ (fun x : nat * nat * vec => nth_error (map_values (pc_map p)) (fst (fst x))) (fun iph => Some (INR (fst iph)))).
  - assert (G : forall (l : list phase) s, NoDup (map (fun iph : nat * phase => Some (INR (fst iph))) (combine (seq s (len l)) l))).
    { induction l as [|ph l IH]; intros s; cbn [List.length seq combine map fst]; [constructor|]. constructor; auto.
      intros Hin. apply in_map_iff in Hin as ((i & ph') & E & Hi). apply in_combine_l, in_seq in Hi. cbn [fst] in E. inversion E as [E']. apply INR_eq' in E'. lia. }
    apply G.
  - intros [i ph] _. cbn [fst snd]. apply (nodup_flat _ (fun x : nat * nat * vec => fst (fst x)) (fun e => e)).
    + rewrite map_id. apply where_eq_nodup.
    + intros e _. unfold element_reflections. destruct (nth_error (pc_U p) e) as [U|]; [|constructor]. destruct (nth_error (pc_eB p) e) as [B|]; [|constructor].
      apply (NoDup_map_inv (fun x : nat * nat * vec => snd (fst x))). rewrite map_map. cbn [fst snd]. apply planes_j_nodup.
    + intros e x _ Hx. unfold element_reflections in Hx. destruct (nth_error (pc_U p) e) as [U|]; [|destruct Hx]. destruct (nth_error (pc_eB p) e) as [B|]; [|destruct Hx].
      apply in_map_iff in Hx as (jh & <- & _). reflexivity.
  - intros [i ph] x _ Hx. cbn [fst snd] in *. apply in_flat_map in Hx as (e & He & Hx). apply where_eq_in in He. unfold element_reflections in Hx.
    destruct (nth_error (pc_U p) e) as [U|]; [|destruct Hx]. destruct (nth_error (pc_eB p) e) as [B|]; [|destruct Hx].
    apply in_map_iff in Hx as (jh & <- & _). exact He.
Qed.
Lemma event_count_reflections p b m : (forall ph, In ph (pc_phases p) -> exists planes, used_planes ph = Ok planes) ->
  event_count p b m = list_sum (map (fun x => reflection_times b m (snd x)) (reflections p)).
Proof.
  intros Hu. unfold event_count, reflections, mapi. rewrite mapi_combine_seq, list_sum_flat. apply list_sum_ext. intros [i ph] Hi. cbn [fst snd].
  apply in_combine_r in Hi. destruct (Hu ph Hi) as (planes & Hp). unfold phase_events. rewrite Hp. rewrite list_sum_flat. apply list_sum_ext. intros e _.
  unfold element_events, element_reflections. destruct (nth_error (pc_U p) e) as [U|]; [|reflexivity]. destruct (nth_error (pc_eB p) e) as [B|]; [|reflexivity].
  rewrite map_map. cbn [snd]. rewrite <- (map_map snd (fun h => reflection_times b m (mv U (mv B h))) (planes_j ph)), (planes_j_used _ _ Hp), map_map. reflexivity.
Qed.
Lemma diffracts_solves p b a w T o m e j t G : make_motion a w T o = Ok m -> unit a ->
  diffracts_at p b a m e j t G <-> exists G0, In (e, j, G0) (reflections p) /\ solves (laue_factors (b_wave_vector b) (m_axis m)) (m_angle m) G0 t /\ G = rot_at m t G0.
Proof.
  intros Hm U. unfold diffracts_at. split.
  - intros (i & ph & h & G0 & A & B & C & D & Ht & HR & HL & HP). exists G0. rewrite rotate_P1_S0 in HR. apply okP1_inj in HR. subst G.
    split; [apply reflections_in; eauto 8|]. split; auto. apply (solves_iff _ a w T o m); auto.
  - intros (G0 & Hin & Hs & ->). apply reflections_in in Hin as (i & ph & h & A & B & C & D). apply (solves_iff _ a w T o m) in Hs as (Ht & HL & HP); auto.
    exists i, ph, h, G0. pose proof (rotate_P1_S0 m G0 t). repeat (split; auto).
Qed.
(** C13 without the solver: a call that no reflection answers returns an empty table; two or
    more events give a table; a single event makes it raise IndexError, unless it is grazing. *)
Lemma pC13_events : forall z x p b a w T o m lo hi det l,
  reachable_pc x p -> xtal_ok x -> pc_map p = MapTensor l -> limits_ok p b lo det ->
  make_motion a w T o = Ok m -> unit a ->
  let '(r, p') := diffract z x p b m lo hi det in
  ((forall e j t G, ~ diffracts_at p' b a m e j t G) -> exists d, r = Ok d /\ pd_peaks d = []) /\
  (forall e j t G e' j' t' G', diffracts_at p' b a m e j t G -> diffracts_at p' b a m e' j' t' G' -> (e, j, t) <> (e', j', t') -> exists d, r = Ok d) /\
  (forall e j t G, diffracts_at p' b a m e j t G -> (forall e' j' t' G', diffracts_at p' b a m e' j' t' G' -> (e', j', t') = (e, j, t)) ->
     (grazing (b_wave_vector b) a G -> exists d, r = Ok d) /\ (~ grazing (b_wave_vector b) a G -> r = Err IndexError)).
Proof.
  intros z x p b a w T o m lo hi det l HR HX HM HL Hm U.
  pose proof (pC13_outcome z x p b m lo hi det l HR HX HM HL) as HO.
  pose proof (fun d q => peaks_iff z x p b m lo hi det d q) as HPK.
  destruct (diffract z x p b m lo hi det) as [r p'] eqn:ED. destruct HO as [H1 H2].
  assert (Hu : forall ph, In ph (pc_phases p') -> exists planes, used_planes ph = Ok planes).
  { unfold diffract in ED. destruct (limits_bounds p b lo hi det HL) as (lo' & hi' & E). rewrite E in ED. inversion ED as [[E1 E2]]. cbn [pc_phases].
    intros ph Hin. apply in_map_iff in Hin as (ph0 & <- & Hin). apply setup_used; auto. pose proof (wf_reachable _ _ HR) as (_ & _ & _ & _ & _ & A6). eapply Forall_forall in A6; eauto. }
  rewrite (event_count_reflections p' b m Hu) in *.
  assert (DS := fun e j t G => diffracts_solves p' b a w T o m e j t G Hm U).
  split; [|split].
  - intros Hno. assert (Z : list_sum (map (fun x => reflection_times b m (snd x)) (reflections p')) = 0%nat).
    { apply list_sum_zero. intros [[e j] G0] Hin. cbn [snd]. apply times_none. intros t Ht. apply (Hno e j t (rot_at m t G0)). apply DS. eauto. }
    destruct H2 as (d & ->); [lia|]. exists d. split; auto. destruct (pd_peaks d) as [|row rows] eqn:Ep; auto. exfalso.
    destruct (HPK d p' 0%nat row eq_refl ltac:(rewrite Ep; reflexivity)) as (i & ph & e & h & sf & t & G & c & v & A1 & A2 & A3 & A4 & A5 & _).
    destruct (diffract_state z x p b m lo hi det) as (phs & ES & _). rewrite ED in ES. cbn [snd] in ES.
    assert (exists j, plane_at ph j h) as (j & Hj).
    { destruct A3 as (hkl & j & B1 & B2 & B3). exists j, hkl. split; auto. split; auto. destruct (ph_sf ph) as [s|]; auto. destruct B3 as (re & im & B3 & B4 & B5). exists re, im. split; auto. lra. }
    apply (Hno e j t (rot_at m t G)). apply DS. exists G. split; [|split; auto]. apply reflections_in. exists i, ph, h.
    split; [subst p'; exact A2|]. split; auto. split; auto. subst p'. exact A4.
  - intros e j t G e' j' t' G' D1 D2 Hne. apply H2. apply DS in D1 as (G0 & I1 & S1 & _). apply DS in D2 as (G0' & I2 & S2 & _).
    assert (2 <= list_sum (map (fun x => reflection_times b m (snd x)) (reflections p')))%nat; [|lia].
    destruct (Nat.eq_dec e e') as [->|Ne]; [destruct (Nat.eq_dec j j') as [->|Nj]|].
    + assert (G0 = G0').
      { apply reflections_in in I1 as (i & ph & h & A & B & C & U1 & B1 & D & F & ->). apply reflections_in in I2 as (i' & ph' & h' & A' & B' & C' & U2 & B2 & D' & F' & ->).
        unfold in_phase in A, A'. rewrite A in A'. inversion A' as [E']. apply INR_eq' in E'. subst i'. rewrite B in B'. inversion B'; subst ph'.
        destruct C as (hk & C1 & C2 & _), C' as (hk' & C1' & C2' & _). rewrite C1 in C1'. inversion C1'; subst hk'. congruence. }
      subst G0'. eapply Nat.le_trans; [|apply (list_sum_ge (fun x => reflection_times b m (snd x)) _ _ I1)]. cbn [snd]. apply (times_two b m G0 t t' S1 S2). congruence.
    + pose proof (list_sum_ge2 (fun x => reflection_times b m (snd x)) _ _ _ I1 I2 ltac:(congruence)) as Q. cbn [snd] in Q. pose proof (times_some _ _ _ _ S1). pose proof (times_some _ _ _ _ S2). lia.
    + pose proof (list_sum_ge2 (fun x => reflection_times b m (snd x)) _ _ _ I1 I2 ltac:(congruence)) as Q. cbn [snd] in Q. pose proof (times_some _ _ _ _ S1). pose proof (times_some _ _ _ _ S2). lia.
  - intros e j t G D1 Huniq. apply DS in D1 as (G0 & I1 & S1 & ->).
    assert (Z : list_sum (map (fun x => reflection_times b m (snd x)) (reflections p')) = reflection_times b m G0).
    { apply (list_sum_one (fun x => reflection_times b m (snd x)) _ (e, j, G0)); auto; [apply reflections_nodup|]. intros [[e' j'] G0'] Hin Hne. cbn [snd]. apply times_none. intros t' Ht'.
      assert (Q : (e', j', t') = (e, j, t)) by (apply (Huniq e' j' t' (rot_at m t' G0')); apply DS; eauto). inversion Q; subst e' j' t'. apply Hne. f_equal.
      apply reflections_in in I1 as (i & ph & h & A & B & C & U1 & B1 & D & F & ->). apply reflections_in in Hin as (i' & ph' & h' & A' & B' & C' & U2 & B2 & D' & F' & ->).
      unfold in_phase in A, A'. rewrite A in A'. inversion A' as [E']. apply INR_eq' in E'. subst i'. rewrite B in B'. inversion B'; subst ph'.
      destruct C as (hk & C1 & C2 & _), C' as (hk' & C1' & C2' & _). rewrite C1 in C1'. inversion C1'; subst hk'. congruence. }
    destruct (times_single b a w T o m G0 t Hm U S1) as [G2 G1].
    { intros t' Ht'. assert (Q : (e, j, t') = (e, j, t)) by (apply (Huniq e j t' (rot_at m t' G0)); apply DS; eauto). now inversion Q. }
    rewrite Z in *. split; intros Hg; [apply H2; rewrite G2 by auto; lia|apply H1; auto].
Qed.
(** A sample with exactly one event, which is not grazing, and one with two. *)
Lemma xC13_events : exists x p b, reachable_pc x p /\ xtal_ok x /\ pc_map p = MapTensor [0] /\ limits_ok p b 0 None /\
  make_motion (V3 0 0 1) 1 (V3 0 0 1) vzero = Ok ex_motion /\ unit (V3 0 0 1) /\
  let p' := snd (diffract false x p b ex_motion 0 1 None) in
  diffracts_at p' b (V3 0 0 1) ex_motion 0 0 0 (V3 (-1) 1 0) /\ ~ grazing (b_wave_vector b) (V3 0 0 1) (V3 (-1) 1 0) /\
  (forall e j t G, diffracts_at p' b (V3 0 0 1) ex_motion e j t G -> (e, j, t) = (0%nat, 0%nat, 0)).
Proof.
  destruct big_beam as (b & Hb & Hk & Hin). destruct (ex_pc one_plane) as (me & p & H1 & H2 & H3 & H4 & H5 & H6 & H7 & H8 & H9 & H10).
  exists (ex_xtal one_plane), p, b. split; auto. split; [apply ex_xtal_ok|]. split; auto. split; [exact I|]. split; [apply ex_motion_ok|]. split; [apply unit_ez|].
  cbv zeta. rewrite (ex_after _ _ _ _ _ _ H5). set (p' := PC _ _ _ _ _ _ _ _ _ _).
  assert (F : laue_condition (b_wave_vector b) (V3 (-1) 1 0)).
  { unfold laue_condition. rewrite Hk. unfold norm. f_equal. vunf. lra. }
  assert (G : ~ laue_condition (b_wave_vector b) (right_handed_rotation (V3 0 0 1) PI (V3 (-1) 1 0))).
  { unfold laue_condition. rewrite Hk, <- rod_spec by apply unit_ez. unfold rod_matrix, rod_K2, rod_K. rewrite sin_PI, cos_PI.
    unfold norm. intros E1. apply sqrt_inj in E1; [|apply normsq_nonneg|apply normsq_nonneg]. revert E1. vunf. lra. }
  assert (E : motion_rotate ex_motion (P1 (V3 (-1) 1 0)) (S0 0) = Ok (P1 (V3 (-1) 1 0))).
  { rewrite rotate_P1_S0. do 2 f_equal. apply rot_at_0. }
  assert (D : diffracts_at p' b (V3 0 0 1) ex_motion 0 0 0 (V3 (-1) 1 0)).
  { exists 0%nat, (setup_planes (ex_xtal one_plane) ex_phase (b_wavelength b) 0 1), (V3 (-1) 1 0), (V3 (-1) 1 0).
    split; [unfold in_phase; cbn [p' pc_map]; now rewrite H4|]. split; [reflexivity|]. split; [exists one_plane; repeat split|].
    split; [exists mI, mI; cbn [p' pc_U pc_eB]; rewrite H6, H7; repeat split; now rewrite !mv_I|]. split; [lra|]. auto. }
  split; auto. split.
  { unfold grazing. rewrite Hk. vunf. lra. }
  intros e j t G' D'. pose proof (diffracts_solves p' b _ _ _ _ _ e j t G' ex_motion_ok unit_ez) as DS. apply DS in D' as (G0 & I' & S' & _).
  apply reflections_in in I' as (i & ph & h & A1 & A2 & A3 & U0 & B0 & A4 & A5 & ->). cbn [p' pc_phases pc_U pc_eB] in A2, A4, A5. rewrite H6 in A4. rewrite H7 in A5.
  destruct e as [|e]; [|destruct e; discriminate]. cbn in A4, A5. assert (U0 = mI) by congruence. assert (B0 = mI) by congruence. subst U0 B0. rewrite !mv_I in S'.
  destruct i as [|i]; [|destruct i; discriminate]. cbn [nth_error] in A2. apply (f_equal (fun o => match o with Some q => ph_hkl q | None => None end)) in A2. cbn in A2.
  destruct A3 as (hkl & C1 & C2 & _). rewrite C1 in A2. assert (hkl = one_plane) by congruence. subst hkl. destruct j as [|j]; [|destruct j; discriminate].
  cbn in C2. assert (h = V3 (-1) 1 0) by congruence. subst h.
  apply (diffracts_solves p' b _ _ _ _ _ 0%nat 0%nat 0 _ ex_motion_ok unit_ez) in D as (G1 & I1 & S1 & _).
  apply reflections_in in I1 as (i1 & ph1 & h1 & A1' & A2' & A3' & U1 & B1 & A4' & A5' & ->). cbn [p' pc_phases pc_U pc_eB] in A2', A4', A5'. rewrite H6 in A4'. rewrite H7 in A5'.
  cbn in A4', A5'. assert (U1 = mI) by congruence. assert (B1 = mI) by congruence. subst U1 B1. rewrite !mv_I in S1.
  destruct i1 as [|i1]; [|destruct i1; discriminate]. cbn [nth_error] in A2'. apply (f_equal (fun o => match o with Some q => ph_hkl q | None => None end)) in A2'. cbn in A2'.
  destruct A3' as (hkl & C1' & C2' & _). rewrite C1' in A2'. assert (hkl = one_plane) by congruence. subst hkl.
  cbn in C2'. assert (h1 = V3 (-1) 1 0) by congruence. subst h1.
  destruct (Req_EM_T t 0) as [->|N]; auto. exfalso. pose proof (times_two b ex_motion _ t 0 S' S1 N) as Q. rewrite (refl_pos b Hk) in Q. lia.
Qed.
