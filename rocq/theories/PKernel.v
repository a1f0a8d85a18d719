(** * Proofs about MRender: batching of the Airy renderer (C41) and the kernels (C43, C44, C45). *)
From Verif Require Import Vec Spec MMotion MLaue MMesh MScattering MStrain MBeam MPolycrystal SPolycrystal MDetector SDetector.
From Verif Require Import MRender SRender PLaue PScattering PBeam PDetector PDetector2 PDetector3 PDetector4 PRender PRender2 PRenderEx PRender3.
From Coq Require Import Permutation.
Open Scope R_scope.
Local Notation len := List.length.

(** ** C41 *)
Lemma fit_ge avail mem : (1 <= fit_count avail mem)%nat.
Proof. unfold fit_count. lia. Qed.
(** For every memory estimate and every available memory the loop ends within as many
    iterations as there are peaks; the batches are non-empty and their concatenation
    is the list of peaks, so every peak is processed exactly once and in order. *)
Lemma pC41_terminates : forall (A : Type) (mem : A -> num) avail (l : list A),
  exists bs, airy_batches mem avail l (List.length l) = Some bs /\ List.concat bs = l /\
    Forall (fun b => b <> []) bs /\ (List.length bs <= List.length l)%nat.
Proof.
  intros A mem avail l.
  assert (G : forall fuel l, (len l <= fuel)%nat -> exists bs, airy_batches mem avail l fuel = Some bs /\ List.concat bs = l /\
    Forall (fun b => b <> []) bs /\ (len bs <= len l)%nat).
  { clear. induction fuel; intros l Hl.
    - destruct l; [|cbn in Hl; lia]. exists []. repeat split; auto.
    - destruct l as [|x l]; [exists []; repeat split; auto|].
      cbn [airy_batches]. pose proof (fit_ge avail (map mem (x :: l))) as Hn. set (n := fit_count _ _) in *.
      destruct (IHfuel (skipn n (x :: l))) as (bs & E & C & F & L).
      { rewrite skipn_length. cbn [List.length] in *. lia. }
      rewrite E. cbn [option_map]. eexists. split; [reflexivity|]. cbn [List.concat]. rewrite C, firstn_skipn. split; auto.
      split.
      + constructor; auto. destruct n; [lia|]. cbn. discriminate.
      + rewrite skipn_length in L. cbn [List.length] in *. lia. }
  apply G. auto.
Qed.

(** Memory figures that are not negative (NaN and infinity included). *)
Definition mem_ok (x : num) : Prop := match x with Fin a => 0 <= a | PInf | NaN => True | NInf => False end.
Lemma cumsum_mono acc mem avail : Forall mem_ok mem ->
  forall k c, nth_error (cumsum acc mem) k = Some c -> nle c (Fin avail) = true ->
  forall j c', (j <= k)%nat -> nth_error (cumsum acc mem) j = Some c' -> nle c' (Fin avail) = true.
Proof.
  intros H. revert acc. induction H as [|x mem Hx Hm IH]; intros acc k c Hk Hc j c' Hj Hj'.
  - cbn in Hk. destruct k; discriminate.
  - cbn [cumsum] in *. destruct j.
    + cbn in Hj'. inversion Hj'; subst c'.
      destruct k; [cbn in Hk; inversion Hk; subst; auto|]. cbn in Hk.
      assert (D : forall mem acc k c, Forall mem_ok mem -> nth_error (cumsum acc mem) k = Some c -> nle c (Fin avail) = true -> nle acc (Fin avail) = true).
      { clear. induction mem as [|y mem IH]; intros acc k c Hm Hk Hc; [destruct k; discriminate|].
        inversion Hm; subst. assert (E : nle (nadd acc y) (Fin avail) = true).
        { destruct k; cbn in Hk; [inversion Hk; subst; auto|]. eapply IH; eauto. }
        destruct acc as [a| | |], y as [b| | |]; unfold nadd in E; cbn in E, H1 |- *; auto; try tauto; try discriminate.
        apply Rleb_true in E. apply Rleb_true. lra. }
      eapply D; eauto.
    + cbn in Hj'. destruct k; [lia|]. cbn in Hk. eapply (IH _ k c Hk Hc j c'); auto; lia.
Qed.
Lemma filter_prefix {A} (p : A -> bool) l :
  (forall k c, nth_error l k = Some c -> p c = true -> forall j c', (j <= k)%nat -> nth_error l j = Some c' -> p c' = true) ->
  forall k c, nth_error l k = Some c -> (k < len (filter p l))%nat -> p c = true.
Proof.
  induction l as [|x l IH]; intros H k c Hk Hlt; [destruct k; discriminate|].
  cbn [filter] in Hlt. destruct (p x) eqn:E.
  - destruct k; cbn in Hk; [inversion Hk; subst; auto|]. cbn in Hlt. apply (IH (fun k0 c0 Hk0 Hc0 j c' Hj Hj' => H (S k0) c0 Hk0 Hc0 (S j) c' ltac:(lia) Hj') k c); auto; lia.
  - exfalso. destruct (filter p l) as [|y f] eqn:F; [cbn in Hlt; lia|].
    assert (Hy : In y (filter p l)) by (rewrite F; left; auto). apply filter_In in Hy as [Hy1 Hy2].
    apply In_nth_error in Hy1 as [m Hm]. specialize (H (S m) y Hm Hy2 0%nat x ltac:(lia) eq_refl). congruence.
Qed.
Lemma cumsum_nth acc mem : forall k c, nth_error (cumsum acc mem) k = Some c -> c = nadd acc (nsum (firstn (S k) mem)).
Proof.
  revert acc. induction mem as [|x mem IH]; intros acc k c H; [destruct k; discriminate|].
  cbn [cumsum] in H. destruct k.
  - cbn in H. inversion H; subst. cbn [firstn]. now rewrite nsum_cons, nsum_nil, nadd_0_r.
  - cbn in H. apply IH in H. rewrite H. cbn [firstn]. now rewrite nsum_cons, nadd_assoc.
Qed.
Lemma cumsum_len acc mem : len (cumsum acc mem) = len mem.
Proof. revert acc. induction mem; intros; cbn; auto. Qed.
Lemma filter_len_le {A} (p : A -> bool) l : (len (filter p l) <= len l)%nat.
Proof. induction l; cbn; auto. destruct (p a); cbn; lia. Qed.
Lemma fit_fits avail mem : Forall mem_ok mem -> (1 < fit_count avail mem)%nat ->
  nle (nsum (firstn (fit_count avail mem) mem)) (Fin avail) = true.
Proof.
  intros Hm Hf. set (n := fit_count avail mem) in *. assert (En : n = len (filter (fun c => nle c (Fin avail)) (cumsum (Fin 0) mem))).
  { unfold n, fit_count in *. lia. }
  pose proof (filter_len_le (fun c => nle c (Fin avail)) (cumsum (Fin 0) mem)) as L. rewrite cumsum_len in L.
  destruct (nth_error (cumsum (Fin 0) mem) (n - 1)) as [c|] eqn:E.
  - pose proof (cumsum_nth _ _ _ _ E) as Hc. rewrite nadd_0_l in Hc. replace (S (n-1)) with n in Hc by lia. rewrite <- Hc.
    eapply (filter_prefix (fun c => nle c (Fin avail))); [|exact E|lia]. intros k c0 Hk Hc0 j c' Hj Hj'. exact (cumsum_mono _ _ avail Hm k c0 Hk Hc0 j c' Hj Hj').
  - apply nth_error_None in E. rewrite cumsum_len in E. lia.
Qed.
Lemma nmul_PInf_pos a : 0 < a -> nmul PInf (Fin a) = PInf.
Proof. intros H. cbn. destruct (Req_EM_T a 0); [lra|]. replace (Rltb 0 a) with true by (symmetry; now apply Rltb_true). reflexivity. Qed.
Lemma mem_nonneg z d r : mem_ok (airy_memory z d r).
Proof.
  unfold airy_memory. cbv zeta. set (ks := nadd _ _). destruct ks as [x| | |].
  - cbn. pose proof (Rle_0_sqr x). unfold Rsqr in *. lra.
  - change (nmul PInf PInf) with PInf. rewrite !nmul_PInf_pos by lra. exact I.
  - change (nmul NInf NInf) with PInf. rewrite !nmul_PInf_pos by lra. exact I.
  - exact I.
Qed.
(** A batch of more than one peak fits in the available memory. *)
Lemma pC41_batches_fit : forall z d avail rows bs b,
  airy_batches (airy_memory z d) avail rows (List.length rows) = Some bs -> In b bs -> (1 < List.length b)%nat ->
  nle (nsum (map (airy_memory z d) b)) (Fin avail) = true.
Proof.
  intros z d avail rows bs b.
  assert (G : forall fuel rows bs, airy_batches (airy_memory z d) avail rows fuel = Some bs -> In b bs -> (1 < len b)%nat ->
    nle (nsum (map (airy_memory z d) b)) (Fin avail) = true).
  { clear rows bs. induction fuel; intros rows bs E Hin Hb.
    - destruct rows; [|discriminate]. cbn in E. inversion E; subst. destruct Hin.
    - destruct rows as [|x rows]; [cbn in E; inversion E; subst; destruct Hin|]. cbn [airy_batches] in E.
      destruct (airy_batches _ _ (skipn _ _) fuel) as [bs'|] eqn:E'; [|discriminate]. cbn [option_map] in E. inversion E; subst bs.
      destruct Hin as [<-|Hin]; [|eapply IHfuel; eauto].
      change (airy_memory z d x :: map (airy_memory z d) rows) with (map (airy_memory z d) (x :: rows)). rewrite <- firstn_map. apply fit_fits.
      + apply Forall_forall. intros m Hm. apply in_map_iff in Hm as (r & <- & _). apply mem_nonneg.
      + rewrite firstn_length in Hb. cbn [map]. lia. }
  apply G.
Qed.
Lemma mem_nonzero z d r : airy_memory z d r <> Fin 0.
Proof.
  unfold airy_memory. cbv zeta. set (kr := nmax _ _). destruct kr as [x| | |]; cbn [nceil].
  - unfold nadd. cbn [nmul]. intros H. inversion H as [H1].
    assert (N : (2 * IZR (ceil x) + 1) * (2 * IZR (ceil x) + 1) = 0) by lra. apply Rmult_integral in N.
    assert (M : IZR (2 * ceil x + 1) = 0) by (rewrite plus_IZR, mult_IZR; destruct N; lra).
    apply eq_IZR_R0 in M. lia.
  - change (nmul (Fin 2) PInf) with (nmul PInf (Fin 2)). rewrite nmul_PInf_pos by lra. change (nadd PInf (Fin 1)) with PInf. change (nmul PInf PInf) with PInf.
    rewrite !nmul_PInf_pos by lra. discriminate.
  - assert (E : nmul (Fin 2) NInf = NInf). { cbn. destruct (Req_EM_T 2 0); [lra|]. replace (Rltb 2 0) with false by (symmetry; apply Rltb_false; lra). reflexivity. }
    rewrite E. change (nadd NInf (Fin 1)) with NInf. change (nmul NInf NInf) with PInf. rewrite !nmul_PInf_pos by lra. discriminate.
  - discriminate.
Qed.
(** Without memory every peak is its own batch. *)
Lemma pC41_no_memory : forall z d rows,
  airy_batches (airy_memory z d) 0 rows (List.length rows) = Some (map (fun r => [r]) rows).
Proof.
  intros z d rows. induction rows as [|x rows IH]; auto. cbn [airy_batches List.length].
  pose proof (mem_nonzero z d x) as Hx.
  assert (F : fit_count 0 (map (airy_memory z d) (x :: rows)) = 1%nat).
  { pose proof (fit_ge 0 (map (airy_memory z d) (x :: rows))). destruct (Nat.eq_dec (fit_count 0 (map (airy_memory z d) (x :: rows))) 1); auto.
    exfalso. assert (Hlt : (1 < fit_count 0 (map (airy_memory z d) (x :: rows)))%nat) by lia.
    assert (Hm : Forall mem_ok (map (airy_memory z d) (x :: rows))).
    { apply Forall_forall. intros m Hm. apply in_map_iff in Hm as (r & <- & _). apply mem_nonneg. }
    unfold fit_count in Hlt. 
    assert (Hl : (0 < len (filter (fun c => nle c (Fin 0)) (cumsum (Fin 0) (map (airy_memory z d) (x :: rows)))))%nat) by lia.
    assert (P : nle (nadd (Fin 0) (airy_memory z d x)) (Fin 0) = true).
    { eapply (filter_prefix (fun c => nle c (Fin 0)) (cumsum (Fin 0) (map (airy_memory z d) (x :: rows)))) with (k := 0%nat); auto.
      intros k c Hk Hc j c' Hj Hj'. exact (cumsum_mono _ _ 0 Hm k c Hk Hc j c' Hj Hj'). }
    rewrite nadd_0_l in P. pose proof (mem_nonneg z d x) as M. destruct (airy_memory z d x) as [a| | |]; cbn in P, M; try discriminate; try tauto.
    apply Rleb_true in P. apply Hx. f_equal. lra. }
  rewrite F. cbn [firstn skipn]. rewrite IH. reflexivity.
Qed.

(** Five peaks with memory 6, 3, 2, 20, 1 and 10 available. *)
Lemma xC41_batches : airy_batches Fin 10 [6; 3; 2; 20; 1] 5 = Some [[6; 3]; [2]; [20]; [1]].
Proof.
  assert (F : forall l, fit_count 10 l = Nat.max 1 (len (filter (fun c => nle c (Fin 10)) (cumsum (Fin 0) l)))) by reflexivity.
  assert (T : forall a b, a <= b -> Rleb a b = true) by (intros; now apply Rleb_true).
  assert (N : forall a b, b < a -> Rleb a b = false) by (intros; apply Rleb_false; lra).
  cbn [airy_batches map]. rewrite F. unfold cumsum, nadd. cbn [filter nle]. rewrite !T, !N by lra. cbn [List.length Nat.max firstn skipn map].
  rewrite F. unfold cumsum, nadd. cbn [filter nle]. rewrite !T, !N by lra. cbn [List.length Nat.max firstn skipn map].
  rewrite F. unfold cumsum, nadd. cbn [filter nle]. rewrite !N by lra. cbn [List.length Nat.max firstn skipn map].
  rewrite F. unfold cumsum, nadd. cbn [filter nle]. rewrite !T by lra. cbn [List.length Nat.max firstn skipn map]. reflexivity.
Qed.
