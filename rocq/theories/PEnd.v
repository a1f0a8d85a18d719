(** * Proofs: the labelled list of all peaks of a diffraction call (C84, part 1). *)
From Verif Require Import Vec Spec MMotion PMotion MLaue PLaue MMesh SMesh PMesh MScattering SScattering PScattering.
From Verif Require Import MStrain SStrain PStrain MBeam SBeam PBeam MPolycrystal SPolycrystal SEvents PPolycrystal PPolycrystal2 PPolycrystal3 PEvents.
From Coq Require Import Permutation Sorted.
Open Scope R_scope.
Local Notation len := List.length.

Lemma traverse_map {A B} (f : A -> result B) (g : A -> B) l out : traverse f l = Ok out ->
  (forall x y, In x l -> f x = Ok y -> y = g x) -> out = map g l.
Proof.
  intros H Hg. apply traverse_spec in H. induction H as [|x y l out Hxy H IH]; [reflexivity|]. cbn [map].
  rewrite <- (Hg x y); [|now left|exact Hxy]. f_equal. apply IH. intros; apply Hg; auto. now right.
Qed.
Lemma nodup_key {A B K} (f : A -> B) (k : A -> K) l : NoDup (map k l) ->
  (forall x y, In x l -> In y l -> f x = f y -> k x = k y) -> NoDup (map f l).
Proof.
  induction l as [|x l IH]; intros Hn H; cbn [map]; [constructor|]. cbn [map] in Hn. inversion Hn as [|? ? Hx Hn']; subst. constructor.
  - intros Hin. apply in_map_iff in Hin as (y & E & Hy). apply Hx. rewrite (H x y); [now apply in_map|now left|now right|auto].
  - apply IH; auto. intros; apply H; auto; now right.
Qed.
Lemma NoDup_app {A} (l m : list A) : NoDup l -> NoDup m -> (forall x, In x l -> In x m -> False) -> NoDup (l ++ m).
Proof.
  induction l as [|x l IH]; intros Hl Hm H; cbn [app]; auto. inversion Hl as [|? ? Hx Hl']; subst. constructor.
  - rewrite in_app_iff. intros [?|?]; [contradiction|]. apply (H x); auto. now left.
  - apply IH; auto. intros y Hy. apply H. now right.
Qed.
Lemma hits_keys sel G0 : NoDup (map hkey (hits sel G0)).
Proof.
  pose proof (proj1 (hits_sorted_from sel G0 0)) as H. cbv zeta in H. unfold hits, mapi. revert H. generalize (map hkey (List.concat (mapi_from 0 (hits_row sel) G0))).
  intros l H. induction H as [|k l Hl IH Hk]; constructor; auto. intros Hin. rewrite Forall_forall in Hk. specialize (Hk k Hin). unfold lex_lt in Hk. lia.
Qed.

(** ** Labels *)
Record lab := Lab { l_i : nat; l_e : nat; l_j : nat; l_h : vec; l_sf : R; l_t : R; l_G : vec }.
Definition lrow (l : lab) : list R := row10 (l_e l) (l_i l) (l_h l) (l_sf l) (l_t l) (l_G l).
Definition sfval (ph : phase) (j : nat) : R :=
  match ph_sf ph with None => 1 | Some s => match nth_error s j with Some ab => fst ab ^ 2 + snd ab ^ 2 | None => 0 end end.
Definition lab_ok (p : polycrystal) (ph : phase) (l : lab) : Prop :=
  in_phase p (l_e l) (l_i l) /\ plane_at ph (l_j l) (l_h l) /\ l_sf l = sfval ph (l_j l) /\
  scattering_vector p (l_e l) (l_h l) (l_G l).
Lemma used_planes_labels ph planes : used_planes ph = Ok planes ->
  planes = map (fun jh => (snd jh, sfval ph (fst jh))) (planes_j ph).
Proof.
  unfold used_planes, planes_j, sfval. destruct (ph_hkl ph) as [hkl|]; [|discriminate]. destruct (ph_sf ph) as [s|].
  - destruct (Nat.eqb_spec (len s) (len hkl)) as [L|]; [|discriminate]. intros H; apply ok_inj in H; subst planes.
    assert (G : forall hkl s k, len s = len hkl ->
      map (fun jh : nat * vec => (snd jh, match nth_error s (fst jh - k) with Some ab => fst ab ^ 2 + snd ab ^ 2 | None => 0 end))
        (filter (fun jh : nat * vec => match nth_error s (fst jh - k) with Some ab => Rltb (/ 10^6) (fst ab ^ 2 + snd ab ^ 2) | None => false end) (combine (seq k (len hkl)) hkl)) =
      filter (fun hs => Rltb (/ 10^6) (snd hs)) (combine hkl (map (fun ab : R * R => fst ab ^ 2 + snd ab ^ 2) s))).
    { clear. induction hkl as [|h hkl IH]; intros [|ab s] k L; cbn in L; try discriminate; [reflexivity|]. injection L as L.
      cbn [List.length seq combine filter map fst snd]. rewrite Nat.sub_diag. cbn [nth_error].
      assert (R : filter (fun jh : nat * vec => match nth_error (ab :: s) (fst jh - k) with Some ab => Rltb (/ 10^6) (fst ab ^ 2 + snd ab ^ 2) | None => false end) (combine (seq (S k) (len hkl)) hkl)
            = filter (fun jh : nat * vec => match nth_error s (fst jh - S k) with Some ab => Rltb (/ 10^6) (fst ab ^ 2 + snd ab ^ 2) | None => false end) (combine (seq (S k) (len hkl)) hkl)).
      { apply filter_ext_in. intros [j h'] Hin. apply in_combine_l, in_seq in Hin. cbn [fst]. replace (j - k)%nat with (S (j - S k)) by lia. reflexivity. }
      assert (M : forall X : list (nat * vec), (forall x, In x X -> (S k <= fst x)%nat) ->
        map (fun jh : nat * vec => (snd jh, match nth_error (ab :: s) (fst jh - k) with Some ab => fst ab ^ 2 + snd ab ^ 2 | None => 0 end)) X =
        map (fun jh : nat * vec => (snd jh, match nth_error s (fst jh - S k) with Some ab => fst ab ^ 2 + snd ab ^ 2 | None => 0 end)) X).
      { intros X HX. apply map_ext_in. intros [j h'] Hin. specialize (HX _ Hin). cbn [fst snd] in *. replace (j - k)%nat with (S (j - S k)) by lia. reflexivity. }
      assert (Q : forall x, In x (filter (fun jh : nat * vec => match nth_error s (fst jh - S k) with Some ab => Rltb (/ 10^6) (fst ab ^ 2 + snd ab ^ 2) | None => false end) (combine (seq (S k) (len hkl)) hkl)) -> (S k <= fst x)%nat).
      { intros [j h'] Hin. apply filter_In in Hin as [Hin _]. apply in_combine_l, in_seq in Hin. cbn [fst]. lia. }
      rewrite R. destruct (Rltb _ _); cbn [map fst snd]; rewrite ?Nat.sub_diag; cbn [nth_error]; rewrite (M _ Q), (IH s (S k) L); reflexivity. }
    rewrite <- (G hkl s 0%nat L).
    replace (filter (fun jh : nat * vec => match nth_error s (fst jh - 0) with Some ab => Rltb (/ 10^6) (fst ab ^ 2 + snd ab ^ 2) | None => false end) (combine (seq 0 (len hkl)) hkl))
      with (filter (fun jh : nat * vec => match nth_error s (fst jh) with Some ab => Rltb (/ 10^6) (fst ab ^ 2 + snd ab ^ 2) | None => false end) (combine (seq 0 (len hkl)) hkl)).
    2:{ apply filter_ext_in. intros [j h] _. cbn [fst]. now rewrite Nat.sub_0_r. }
    apply map_ext. intros [j h]. cbn [fst snd]. now rewrite Nat.sub_0_r.
  - intros H; apply ok_inj in H; subst planes.
    assert (F : forall (l : list (nat * vec)), filter (fun _ => true) l = l) by (induction l; cbn; congruence). rewrite F.
    generalize 0%nat. induction hkl as [|h hkl IH]; intros k; cbn [List.length seq combine map fst snd]; auto. now rewrite <- IH.
Qed.

(** The rows of one phase: those of the first and those of the second solution, each without repetition. *)
Lemma phase_labels p rho dw i ph rs : phase_rows p rho dw i ph = Ok rs -> exists L1 L2,
  rs = map lrow (L1 ++ L2) /\ NoDup L1 /\ NoDup L2 /\
  (forall l, In l L1 <-> l_i l = i /\ lab_ok p ph l /\ in_unit_interval (fst (laue_candidates rho dw (l_G l))) = Some (l_t l)) /\
  (forall l, In l L2 <-> l_i l = i /\ lab_ok p ph l /\ in_unit_interval (snd (laue_candidates rho dw (l_G l))) = Some (l_t l)).
Proof.
  unfold phase_rows. destruct (pc_map p) as [l|l] eqn:EM; [discriminate|].
  intros H. destruct (used_planes ph) as [planes|] eqn:E1; cbn [bind] in H; [|discriminate].
  destruct (gather (pc_U p) _) as [us|] eqn:E2; cbn [bind] in H; [|discriminate].
  destruct (gather (pc_eB p) _) as [bs|] eqn:E3; cbn [bind] in H; [|discriminate].
  set (G0 := map _ (combine us bs)) in H.
  destruct (find_solutions rho dw G0) as [evs|] eqn:E4; cbn [bind] in H; [|discriminate].
  apply gather_spec in E2. apply gather_spec in E3. apply used_planes_labels in E1.
  assert (CELL : forall g k G, cell G0 g k = Some G <->
     exists e U B j h, nth_error (where_eq l i) g = Some e /\ nth_error (pc_U p) e = Some U /\
       nth_error (pc_eB p) e = Some B /\ nth_error (planes_j ph) k = Some (j, h) /\ G = mv U (mv B h)).
  { intros g k G. unfold cell, G0. rewrite nth_error_map. split.
    - destruct (nth_error (combine us bs) g) as [[U B]|] eqn:E; [|discriminate]. cbn [option_map fst snd].
      rewrite nth_error_map. rewrite E1, nth_error_map. destruct (nth_error (planes_j ph) k) as [[j h]|] eqn:Ek; [|discriminate].
      cbn [option_map fst snd]. intros HG. apply nth_error_combine in E as (EU & EB).
      destruct (nth_error_lt (where_eq l i) g) as (e & He).
      { rewrite (Forall2_len _ _ _ E2). eapply nth_error_lt'; eauto. }
      exists e, U, B, j, h. repeat split; auto.
      + pose proof (Forall2_nth' _ _ _ _ _ _ E2 He EU); auto.
      + pose proof (Forall2_nth' _ _ _ _ _ _ E3 He EB); auto.
      + unfold get_G in HG. rewrite mv_mm in HG. congruence.
    - intros (e & U & B & j & h & He & HU & HB & Hk & ->).
      destruct (Forall2_nth _ _ _ _ _ E2 He) as (U' & EU & HU'). destruct (Forall2_nth _ _ _ _ _ E3 He) as (B' & EB & HB').
      assert (U' = U) by congruence. assert (B' = B) by congruence. subst U' B'.
      rewrite (combine_nth _ _ _ _ _ EU EB). cbn [option_map fst snd]. rewrite nth_error_map, E1, nth_error_map, Hk. cbn [option_map fst snd].
      unfold get_G. now rewrite mv_mm. }
  set (mk := fun h : hit => let jh := nth (h_plane h) (planes_j ph) (0%nat, vzero) in
     Lab i (nth (h_grain h) (where_eq l i) 0%nat) (fst jh) (snd jh) (sfval ph (fst jh)) (h_time h)
         (match cell G0 (h_grain h) (h_plane h) with Some G => G | None => vzero end)).
  assert (MK : forall sel h, In h (hits sel G0) -> exists e U B j v,
     nth_error (where_eq l i) (h_grain h) = Some e /\ nth_error (pc_U p) e = Some U /\ nth_error (pc_eB p) e = Some B /\
     nth_error (planes_j ph) (h_plane h) = Some (j, v) /\ cell G0 (h_grain h) (h_plane h) = Some (mv U (mv B v)) /\
     in_unit_interval (sel (mv U (mv B v))) = Some (h_time h) /\
     mk h = Lab i e j v (sfval ph j) (h_time h) (mv U (mv B v))).
  { intros sel h Hh. apply in_hits in Hh as (G & Hc & Ht). pose proof Hc as Hc'. apply CELL in Hc as (e & U & B & j & v & A1 & A2 & A3 & A4 & ->).
    exists e, U, B, j, v. repeat (split; auto). unfold mk. rewrite (nth_error_nth _ _ _ A1), (nth_error_nth _ _ _ A4), Hc'. reflexivity. }
  assert (GEN : forall sel, NoDup (map mk (hits sel G0)) /\
     forall lb, In lb (map mk (hits sel G0)) <-> l_i lb = i /\ lab_ok p ph lb /\ in_unit_interval (sel (l_G lb)) = Some (l_t lb)).
  { intros sel. split.
    - apply (nodup_key mk hkey); [apply hits_keys|]. intros x y Hx Hy E.
      destruct (MK sel x Hx) as (e & U & B & j & v & A1 & _ & _ & A4 & _ & _ & A7).
      destruct (MK sel y Hy) as (e' & U' & B' & j' & v' & B1 & _ & _ & B4 & _ & _ & B7). rewrite A7, B7 in E.
      assert (e = e') by congruence. assert (j = j') by congruence. subst e' j'. unfold hkey.
      assert (HG : h_grain x = h_grain y).
      { pose proof (where_eq_nodup l i) as N. rewrite NoDup_nth_error in N. apply N; [eapply nth_error_lt'; eauto|congruence]. }
      assert (HP : h_plane x = h_plane y).
      { pose proof (planes_j_nodup ph) as N. rewrite NoDup_nth_error in N. apply N; [rewrite map_length; eapply nth_error_lt'; eauto|].
        rewrite !nth_error_map, A4, B4. reflexivity. }
      congruence.
    - intros lb. rewrite in_map_iff. split.
      + intros (h & <- & Hh). destruct (MK sel h Hh) as (e & U & B & j & v & A1 & A2 & A3 & A4 & A5 & A6 & A7). rewrite A7. cbn [l_i l_G l_t].
        split; auto. split; [|exact A6]. unfold lab_ok. cbn [l_i l_e l_j l_h l_sf l_G]. unfold in_phase. rewrite EM. cbn [map_values].
        split; [apply where_eq_in; eapply nth_error_In; eauto|]. split; [apply planes_j_in; eapply nth_error_In; eauto|]. split; auto. exists U, B. auto.
      + intros (Hi & (He & Hj & Hsf & U & B & HU & HB & HG) & Ht). destruct lb as [i' e j v sf t G]. cbn [l_i l_e l_j l_h l_sf l_t l_G] in *. subst i' sf G.
        unfold in_phase in He. rewrite EM in He. cbn [map_values] in He. apply where_eq_in, In_nth_error in He as (g & Hg).
        apply planes_j_in, In_nth_error in Hj as (k & Hk).
        assert (Hc : cell G0 g k = Some (mv U (mv B v))) by (apply CELL; exists e, U, B, j, v; auto).
        exists (Hit g k t). assert (Hin : In (Hit g k t) (hits sel G0)) by (apply in_hits; cbn [h_grain h_plane h_time]; eauto). split; auto.
        unfold mk. cbn [h_grain h_plane h_time]. rewrite (nth_error_nth _ _ _ Hg), (nth_error_nth _ _ _ Hk), Hc. reflexivity. }
  set (s1 := fun G => fst (laue_candidates rho dw G)) in *. set (s2 := fun G => snd (laue_candidates rho dw G)) in *.
  destruct (GEN s1) as [N1 I1]. destruct (GEN s2) as [N2 I2].
  exists (map mk (hits s1 G0)), (map mk (hits s2 G0)). split; [|auto 6].
  unfold find_solutions in E4. fold s1 s2 in E4. rewrite <- map_app.
  assert (Hh : forall h, In h (hits s1 G0 ++ hits s2 G0) -> exists sel, In h (hits sel G0)).
  { intros h Hh. apply in_app_or in Hh as [Hh|Hh]; eauto. }
  set (hs := hits s1 G0 ++ hits s2 G0) in *.
  assert (Ev : evs = map (fun h => Event (h_grain h) (h_plane h) (h_time h) (l_G (mk h))) hs).
  { apply (traverse_map _ _ _ _ E4). intros h ev Hin Hg. destruct (Hh h Hin) as (sel & Hs).
    destruct (MK sel h Hs) as (e & U & B & j & v & A1 & A2 & A3 & A4 & A5 & A6 & A7). rewrite A7. cbn [l_G].
    unfold gather_G in Hg. unfold cell in A5. destruct (nth_error G0 (h_grain h)) as [row|]; [|discriminate]. rewrite A5 in Hg. apply ok_inj in Hg. now symmetry. }
  subst evs. clear E4. rewrite map_map.
  assert (TR : traverse (fun h => peak_row10 (where_eq l i) i planes (Event (h_grain h) (h_plane h) (h_time h) (l_G (mk h)))) hs = Ok rs).
  { rewrite <- H. clear. induction hs as [|h hs IH]; [reflexivity|]. cbn [map traverse]. now rewrite IH. }
  apply (traverse_map _ _ _ _ TR). intros h r Hin Hr. destruct (Hh h Hin) as (sel & Hs).
  destruct (MK sel h Hs) as (e & U & B & j & v & A1 & A2 & A3 & A4 & A5 & A6 & A7). rewrite A7 in Hr |- *.
  unfold peak_row10 in Hr. cbn [ev_grain ev_plane ev_time ev_G l_G] in Hr. rewrite A1, E1, nth_error_map, A4 in Hr. cbn [option_map fst snd] in Hr.
  apply ok_inj in Hr. rewrite <- Hr. reflexivity.
Qed.

(** ** All phases *)
Definition lab_sel (p : polycrystal) (rho : rho_factors) (dw : R) (sel : num * num -> num) (X : list (nat * phase)) (l : lab) : Prop :=
  exists ph, In (l_i l, ph) X /\ lab_ok p ph l /\ in_unit_interval (sel (laue_candidates rho dw (l_G l))) = Some (l_t l).
Lemma phases_labels p rho dw X : NoDup (map fst X) -> forall parts,
  traverse (fun iph => phase_rows p rho dw (fst iph) (snd iph)) X = Ok parts -> exists L1 L2,
  Permutation (List.concat parts) (map lrow (L1 ++ L2)) /\ NoDup L1 /\ NoDup L2 /\
  (forall l, In l L1 <-> lab_sel p rho dw fst X l) /\ (forall l, In l L2 <-> lab_sel p rho dw snd X l).
Proof.
  induction X as [|[i ph] X IH]; intros Hn parts H.
  - cbn [traverse] in H. apply ok_inj in H. subst parts. exists [], []. split; [constructor|]. split; [constructor|]. split; [constructor|].
    split; intros l; (split; [intros []|intros (? & [] & _)]).
  - cbn [map fst] in Hn. inversion Hn as [|? ? Hi Hn']; subst. cbn [traverse fst snd] in H.
    destruct (phase_rows p rho dw i ph) as [rs|] eqn:E1; cbn [bind] in H; [|discriminate].
    destruct (traverse _ X) as [ps|] eqn:E2; cbn [bind] in H; [|discriminate]. apply ok_inj in H. subst parts.
    destruct (IH Hn' ps eq_refl) as (A1 & A2 & P & N1 & N2 & I1 & I2). destruct (phase_labels _ _ _ _ _ _ E1) as (B1 & B2 & -> & M1 & M2 & J1 & J2).
    assert (GEN : forall sel (B A : list lab), NoDup B -> NoDup A ->
      (forall l, In l B <-> l_i l = i /\ lab_ok p ph l /\ in_unit_interval (sel (laue_candidates rho dw (l_G l))) = Some (l_t l)) ->
      (forall l, In l A <-> lab_sel p rho dw sel X l) -> NoDup (B ++ A) /\ (forall l, In l (B ++ A) <-> lab_sel p rho dw sel ((i, ph) :: X) l)).
    { intros sel B A NB NA IB IA. split.
      - apply NoDup_app; auto. intros l HB HA. apply IB in HB as (Hl & _). apply IA in HA as (ph' & HX & _). apply Hi. rewrite <- Hl.
        apply (in_map fst) in HX. exact HX.
      - intros l. rewrite in_app_iff, IB, IA. unfold lab_sel. split.
        + intros [(Hl & H1 & H2)|(ph' & HX & H1 & H2)]; [exists ph|exists ph']; repeat split; auto; try apply H1; [left; now rewrite Hl|now right].
        + intros (ph' & [HX|HX] & H1 & H2); [left|right; eauto]. inversion HX; subst. auto. }
    destruct (GEN fst B1 A1 M1 N1 J1 I1) as [X1 X2]. destruct (GEN snd B2 A2 M2 N2 J2 I2) as [Y1 Y2].
    exists (B1 ++ A1), (B2 ++ A2). split; [|auto 6]. cbn [List.concat].
    rewrite P, <- map_app. apply Permutation_map. rewrite <- !app_assoc. apply Permutation_app_head.
    rewrite !app_assoc. apply Permutation_app_tail. apply Permutation_app_comm.
Qed.

(** ** Grazing reflections are the double roots *)
Lemma double_root k a w T o m G t : make_motion a w T o = Ok m -> unit a -> 0 <= t <= 1 ->
  (fst (laue_candidates (laue_factors k (m_axis m)) (m_angle m) G) = Fin t /\ snd (laue_candidates (laue_factors k (m_axis m)) (m_angle m) G) = Fin t) <->
  (solves (laue_factors k (m_axis m)) (m_angle m) G t /\ grazing k a (rot_at m t G)).
Proof.
  intros Hm U Ht. apply make_motion_ok_iff in Hm as (W & _ & ->). unfold rot_at, grazing, solves in *. cbn [m_axis m_angle] in *.
  rewrite grazing_value by auto. set (f := laue_factors k a) in *. rewrite (candidates_closed f w G) by lra.
  destruct (Req_EM_T _ 0) as [E|E]; [cbn [fst snd]; intuition discriminate|].
  destruct (Rlt_dec (cand_disc f G) 0) as [D|D]; [cbn [fst snd]; intuition discriminate|]. cbn [fst snd].
  set (q := sqrt (cand_disc f G)) in *. assert (Hq : q * q = cand_disc f G) by (apply sqrt_sqrt; lra).
  set (c := cand_a f G) in *.
  assert (Inj : forall u v, 2 * atan u / w = 2 * atan v / w -> u = v).
  { intros u v Huv. assert (atan u = atan v) as Ha. { apply (Rmult_eq_compat_r (w / 2)) in Huv. replace (2 * atan u / w * (w / 2)) with (atan u) in Huv by (field; lra). replace (2 * atan v / w * (w / 2)) with (atan v) in Huv by (field; lra). exact Huv. }
    apply (f_equal tan) in Ha. now rewrite !tan_atan in Ha. }
  assert (GZ : forall s, w * t = 2 * atan s -> (s = - c + q \/ s = - c - q) ->
     - rho0 f G * sin (w * t) + rho1 f G * cos (w * t) = (rho2 f G - rho0 f G) * (s + c)).
  { intros s Es Hsq. assert (Hroot : (s + c) * (s + c) = cand_disc f G) by (destruct Hsq as [-> | ->]; rewrite <- Hq; ring).
    rewrite Es, cos_2atan, sin_2atan. assert (P : 0 < 1 + s * s) by nra.
    apply quad_root in Hroot; auto.
    assert (Ec : (rho2 f G - rho0 f G) * c = rho1 f G) by (unfold c, cand_a; field; auto).
    rewrite Rmult_plus_distr_l, Ec. apply (Rmult_eq_reg_r (1 + s * s)); [|lra].
    transitivity (- 2 * rho0 f G * s + rho1 f G * (1 - s * s)); [field; lra|].
    symmetry. transitivity ((- 2 * rho0 f G * s + rho1 f G * (1 - s * s)) + s * ((rho2 f G - rho0 f G) * (s * s) + 2 * rho1 f G * s + (rho0 f G + rho2 f G))); [ring|]. rewrite Hroot. ring. }
  split.
  - intros [H1 H2]. split; [auto|]. inversion H1 as [H1']. inversion H2 as [H2'].
    assert (Q : q = 0) by (rewrite <- H2' in H1'; apply Inj in H1'; lra).
    rewrite H1'. rewrite (GZ (- c + q)); [rewrite Q; ring| |now left]. rewrite <- H1'. field; lra.
  - intros ((_ & Hs) & Hg).
    assert (exists s, w * t = 2 * atan s /\ (s = - c + q \/ s = - c - q)) as (s & Es & Hsq).
    { destruct Hs as [Hs|Hs]; inversion Hs; [exists (- c + q)|exists (- c - q)]; (split; [field; lra|auto]). }
    rewrite (GZ s Es Hsq) in Hg. apply Rmult_integral in Hg as [?|Hg]; [contradiction|].
    assert (Q : q = 0) by (destruct Hsq as [E1|E1]; lra).
    assert (t = 2 * atan s / w) by (rewrite <- Es; field; lra).
    replace (- c + q) with s by (destruct Hsq; lra). replace (- c - q) with s by (destruct Hsq; lra). split; congruence.
Qed.

(** ** One list without repetition, and the grazing part once more *)
Lemma vec_dec (u v : vec) : {u = v} + {u <> v}.
Proof. decide equality; apply Req_EM_T. Qed.
Lemma lab_eq_dec (x y : lab) : {x = y} + {x <> y}.
Proof. decide equality; first [apply Nat.eq_dec|apply Req_EM_T|apply vec_dec]. Qed.
Lemma merge_lists {A} (dec : forall x y : A, {x = y} + {x <> y}) (L1 L2 : list A) : NoDup L1 -> NoDup L2 -> exists all both,
  Permutation (L1 ++ L2) (all ++ both) /\ NoDup all /\ NoDup both /\
  (forall x, In x all <-> In x L1 \/ In x L2) /\ (forall x, In x both <-> In x L1 /\ In x L2).
Proof.
  intros N1 N2. set (q := fun x => if in_dec dec x L1 then true else false).
  exists (L1 ++ filter (fun x => negb (q x)) L2), (filter q L2).
  assert (Q : forall x, q x = true <-> In x L1) by (intros x; unfold q; destruct (in_dec dec x L1); intuition discriminate).
  split.
  { rewrite <- app_assoc. apply Permutation_app_head. clear. induction L2 as [|x L IH]; cbn [filter]; [constructor|].
    destruct (q x); cbn [negb app]; [|now constructor]. apply Permutation_cons_app. exact IH. }
  split.
  { apply NoDup_app; auto; [now apply NoDup_filter|]. intros x H1 H2. apply filter_In in H2 as [_ H2]. apply Q in H1. rewrite H1 in H2. discriminate. }
  split; [now apply NoDup_filter|]. split; intros x.
  - rewrite in_app_iff, filter_In. split; [tauto|]. intros [H|H]; [now left|]. destruct (q x) eqn:E; [left; now apply Q|right; auto].
  - rewrite filter_In, Q. tauto.
Qed.

(** ** The peaks of one diffract call *)
Definition lab_event (p : polycrystal) (b : beam) (m : motion) (l : lab) : Prop :=
  exists ph, nth_error (pc_phases p) (l_i l) = Some ph /\ lab_ok p ph l /\
    solves (laue_factors (b_wave_vector b) (m_axis m)) (m_angle m) (l_G l) (l_t l).
Definition full24 (z : bool) (p : polycrystal) (b : beam) (m : motion) (l : lab) : list num :=
  full_row z b m (lrow l) (nth (l_e l) (me_espherecentroids (pc_mesh_lab p)) vzero) (nth (l_e l) (pc_volumes p) 0).
Lemma gather_map {A} (l : list A) (dft : A) idx out : gather l idx = Ok out -> out = map (fun i => nth i l dft) idx.
Proof.
  intros H. apply gather_spec in H. induction H as [|i x idx out Hh H IH]; [reflexivity|]. cbn [map]. now rewrite (nth_error_nth _ _ _ Hh), IH.
Qed.
Lemma combine_map {A B C} (f : A -> B) (g : A -> C) l : combine (map f l) (map g l) = map (fun x => (f x, g x)) l.
Proof. induction l; cbn; congruence. Qed.
Lemma diffract_labels z x p b a w T o m lo hi det d p' : make_motion a w T o = Ok m -> unit a ->
  diffract z x p b m lo hi det = (Ok d, p') -> exists all graz out,
  pd_peaks d = mapi (fun i r => r ++ [Fin (INR i)]) (filter (illuminated b) out) /\
  Permutation out (map (full24 z p' b m) (all ++ graz)) /\ NoDup all /\ NoDup graz /\
  (forall l, In l all <-> lab_event p' b m l) /\
  (forall l, In l graz <-> lab_event p' b m l /\ grazing (b_wave_vector b) a (rot_at m (l_t l) (l_G l))).
Proof.
  intros Hm U H. apply diffract_inv in H as (out & E & -> & M1 & M2 & M3 & M4 & M5). cbn [pd_peaks].
  apply compute_peaks_inv in E as (rows & cents & vols & E1 & E2 & E3 & _ & Eo).
  apply (gather_map _ vzero) in E2. apply (gather_map _ 0) in E3.
  set (full := fun r => full_row z b m r (nth (grain_of r) (me_espherecentroids (pc_mesh_lab p')) vzero) (nth (grain_of r) (pc_volumes p') 0)).
  assert (Eo' : out = map full rows).
  { rewrite Eo, E2, E3. rewrite !map_map. unfold zip3. clear. induction rows as [|r rows IH]; [reflexivity|]. cbn [map combine fst snd]. now rewrite IH. }
  unfold rows10 in E1. destruct (traverse _ _) as [parts|] eqn:ET; cbn [bind] in E1; [|discriminate]. apply ok_inj in E1.
  assert (NX : NoDup (map fst (combine (seq 0 (len (pc_phases p'))) (pc_phases p')))).
  { assert (G : forall (l : list phase) s, map fst (combine (seq s (len l)) l) = seq s (len l)) by (induction l; intros; cbn; congruence).
    rewrite G. apply seq_NoDup. }
  destruct (phases_labels _ _ _ _ NX _ ET) as (L1 & L2 & P & N1 & N2 & I1 & I2).
  destruct (merge_lists lab_eq_dec L1 L2 N1 N2) as (all & both & PB & NA & NB & IA & IB).
  set (rho := laue_factors (b_wave_vector b) (m_axis m)) in *.
  exists all, both, out. split; [reflexivity|]. split.
  { rewrite Eo'. subst rows. rewrite P. rewrite map_map. rewrite PB.
    replace (map (fun x0 => full (lrow x0)) (all ++ both)) with (map (full24 z p' b m) (all ++ both)); [reflexivity|].
    apply map_ext. intros l. unfold full, full24, lrow. now rewrite grain_of_row10. }
  split; auto. split; auto.
  assert (S : forall sel l, lab_sel p' rho (m_angle m) sel (combine (seq 0 (len (pc_phases p'))) (pc_phases p')) l <->
     exists ph, nth_error (pc_phases p') (l_i l) = Some ph /\ lab_ok p' ph l /\ 0 <= l_t l <= 1 /\ sel (laue_candidates rho (m_angle m) (l_G l)) = Fin (l_t l)).
  { intros sel l. unfold lab_sel. split; intros (ph & H1 & H2 & H3); exists ph; [apply combine_seq_in in H1|apply combine_seq_in in H1].
    - apply in_unit_spec in H3. tauto.
    - split; auto. split; auto. apply in_unit_spec. tauto. }
  split.
  - intros l. rewrite IA, I1, I2, !S. unfold lab_event, solves. fold rho. split.
    + intros [(ph & H1 & H2 & H3 & H4)|(ph & H1 & H2 & H3 & H4)]; exists ph; auto 6.
    + intros (ph & H1 & H2 & H3 & [H4|H4]); [left|right]; exists ph; auto.
  - intros l. rewrite IB, I1, I2, !S. unfold lab_event. split.
    + intros [(ph & H1 & H2 & H3 & H4) (ph' & _ & _ & _ & H5)].
      destruct (proj1 (double_root (b_wave_vector b) a w T o m (l_G l) (l_t l) Hm U H3) (conj H4 H5)) as [HA HB]. split; auto. exists ph. auto.
    + intros [(ph & H1 & H2 & H3) H4]. pose proof (proj1 H3) as Ht.
      destruct (proj2 (double_root (b_wave_vector b) a w T o m (l_G l) (l_t l) Hm U Ht) (conj H3 H4)) as [HA HB]. split; exists ph; auto.
Qed.
