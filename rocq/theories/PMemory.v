(** * Proofs about MMemory (C86). *)
From Verif Require Import Vec MMotion MLaue MBeam MPolycrystal MDetector MRender PRender PKernel MCuda MVerbose MMemory SMemory.
From Coq Require Import Permutation Sorting.Sorted.
Open Scope list_scope.
Open Scope R_scope.
Local Notation len := List.length.

Lemma gb_pos : 0 < gb.
Proof. unfold gb. apply pow_lt. lra. Qed.
Lemma div_gb_le x y : x <= y -> x / gb <= y / gb.
Proof. intros H. apply Rmult_le_compat_r; auto. apply Rlt_le, Rinv_0_lt_compat, gb_pos. Qed.
Lemma div_gb_nonneg x : 0 <= x -> 0 <= x / gb.
Proof. intros H. replace 0 with (0 / gb) by (unfold Rdiv; ring). now apply div_gb_le. Qed.

Lemma ok_eq {A} (a b : A) : Ok a = Ok b -> a = b.
Proof. congruence. Qed.
(** The report names the configured backend. *)
Lemma pC86_device : forall m r, return_device_memory m = Ok r ->
  (selected (m_devices m) = "cuda"%string -> exists s, r_device r = ("cuda:" ++ s)%string) /\
  (selected (m_devices m) <> "cuda"%string -> r_device r = "cpu"%string).
Proof.
  intros m r H. unfold return_device_memory, get_selected_device in H. destruct (String.eqb_spec (selected (m_devices m)) "cuda") as [E|E]; cbn [negb] in H; split; intros K; try contradiction.
  - destruct (m_current m) as [k|].
    + destruct (m_gpu m k) as [[[t a] s]|]; [|destruct (m_cuda_available m)].
      * exists (str k). apply ok_eq in H. now rewrite <- H.
      * exists (str k). apply ok_eq in H. now rewrite <- H.
      * exists "unknown"%string. apply ok_eq in H. now rewrite <- H.
    + destruct (m_cuda_available m); [discriminate|]. inversion H; subst. exists "unknown"%string. reflexivity.
  - destruct (m_psutil m) as [[t a]|]; inversion H; reflexivity.
Qed.
(** Free memory lies between zero and the total. *)
Lemma pC86_range : forall m r, sane m -> return_device_memory m = Ok r -> 0 <= r_free r <= r_available r.
Proof.
  intros m r [S1 S2] H. unfold return_device_memory in H. destruct (negb _).
  - destruct (m_psutil m) as [[t a]|]; inversion H; subst; cbn [r_free r_available]; [|lra].
    destruct (S1 t a eq_refl). split; [now apply div_gb_nonneg|now apply div_gb_le].
  - destruct (m_current m) as [k|].
    + destruct (m_gpu m k) as [[[t a] s]|] eqn:E; inversion H; subst; cbn [r_free r_available]; [|lra].
      destruct (S2 _ _ _ _ E) as [[A1 A2] A3]. pose proof (div_gb_le _ _ A3). pose proof (div_gb_nonneg s ltac:(lra)). lra.
    + destruct (m_cuda_available m); [discriminate|]. inversion H; subst. cbn [r_free r_available]. lra.
Qed.
(** The figures are gigabytes of 1024^3 bytes: the system's available memory, or the GPU's total minus what
    torch has reserved. *)
Lemma pC86_figures : forall m r, return_device_memory m = Ok r ->
  (forall total available, selected (m_devices m) <> "cuda"%string -> m_psutil m = Some (total, available) ->
     r_available r * 1024^3 = total /\ r_free r * 1024^3 = available) /\
  (forall k total allocated reserved, selected (m_devices m) = "cuda"%string -> m_current m = Some k ->
     m_gpu m k = Some (total, allocated, reserved) ->
     r_available r * 1024^3 = total /\ r_free r * 1024^3 = total - reserved).
Proof.
  intros m r H. unfold return_device_memory, get_selected_device in H. split.
  - intros t a N E. apply String.eqb_neq in N. rewrite N, E in H. cbn [negb] in H. inversion H; subst. cbn [r_available r_free]. fold gb. pose proof gb_pos. split; field; lra.
  - intros k t a s N E1 E2. rewrite N, E1, E2 in H. cbn [String.eqb Ascii.eqb Bool.eqb negb] in H. inversion H; subst. cbn [r_available r_free]. fold gb. pose proof gb_pos. split; field; lra.
Qed.
(** A failing query gives zeros, ... *)
Lemma pC86_unknown : forall m,
  (selected (m_devices m) <> "cuda"%string /\ m_psutil m = None) \/
  (selected (m_devices m) = "cuda"%string /\ exists k, m_current m = Some k /\ m_gpu m k = None) \/
  (selected (m_devices m) = "cuda"%string /\ m_current m = None /\ m_cuda_available m = false) ->
  exists s, return_device_memory m = Ok (Report s 0 0).
Proof.
  intros m H. unfold return_device_memory, get_selected_device. destruct H as [[N E]|[[N (k & E1 & E2)]|(N & E1 & E2)]].
  - apply String.eqb_neq in N. rewrite N, E. cbn. eauto.
  - rewrite N, E1, E2. cbn. eauto.
  - rewrite N, E1, E2. cbn. eauto.
Qed.
(** ... except one that raises although CUDA is reported as available. *)
Lemma pC86_raises_iff : forall m, (exists e, return_device_memory m = Err e) <->
  selected (m_devices m) = "cuda"%string /\ m_current m = None /\ m_cuda_available m = true.
Proof.
  intros m. unfold return_device_memory, get_selected_device. split.
  - intros [e H]. destruct (String.eqb_spec (selected (m_devices m)) "cuda") as [E|E]; cbn [negb] in H.
    + split; auto. destruct (m_current m) as [k|]; [destruct (m_gpu m k) as [[[? ?] ?]|]; discriminate|]. destruct (m_cuda_available m); [auto|discriminate].
    + destruct (m_psutil m) as [[? ?]|]; discriminate.
  - intros (-> & -> & ->). cbn. eauto.
Qed.
(** A figure of zero never stops rendering: default batches for Gaussians, one peak at a time for Airy discs. *)
Lemma pC86_zero_still_renders : forall m s z d rows, return_device_memory m = Ok (Report s 0 0) ->
  Z.of_nat (g_batch_size (r_free (Report s 0 0))) = 50000%Z /\
  airy_batches (airy_memory z d) (r_free (Report s 0 0) * 1024^3) rows (List.length rows) = Some (map (fun r => [r]) rows).
Proof.
  intros m s z d rows _. cbn [r_free]. split.
  - unfold g_batch_size. destruct (Rlt_dec 0 0); [lra|]. replace (0 / 500) with (IZR 0) by (unfold Rdiv; ring).
    rewrite (ztrunc_eq _ 0) by (lia || lra). cbn [Z.ltb Z.compare]. rewrite Z2Nat.id by lia. reflexivity.
  - rewrite Rmult_0_l. apply pC41_no_memory.
Qed.

(** ** The report *)
Lemma collect_tracked c g os : collect c g os = tracked c g os.
Proof.
  unfold collect, tracked, tensors_of. induction os as [|o os IH]; auto. cbn [flat_map]. rewrite filter_app, IH. f_equal.
  destruct o; auto. cbn [filter]. unfold admits. destruct (String.eqb (t_kind t) "cpu"), (String.eqb (t_kind t) "cuda"), c, g; reflexivity.
Qed.
Lemma place_perm t l : Permutation (place t l) (t :: l).
Proof. induction l as [|x l IH]; cbn [place]; auto. destruct (_ <=? _)%nat; auto. eapply Permutation_trans; [apply perm_skip, IH|apply perm_swap]. Qed.
Lemma sort_perm l : Permutation (sort_desc l) l.
Proof. induction l as [|x l IH]; cbn; auto. eapply Permutation_trans; [apply place_perm|]. now constructor. Qed.
Notation desc := (StronglySorted (fun a b => (nbytes b <= nbytes a)%nat)).
Lemma place_sorted t l : desc l -> desc (place t l).
Proof.
  induction 1 as [|x l S IH F]; cbn [place]; [repeat constructor|]. destruct (Nat.leb_spec (nbytes x) (nbytes t)) as [L|L].
  - constructor; [now constructor|]. constructor; auto. rewrite Forall_forall in *. intros y Hy. apply F in Hy. lia.
  - constructor; auto. rewrite Forall_forall in *. intros y Hy. apply (Permutation_in _ (place_perm t l)) in Hy. destruct Hy as [<-|Hy]; [lia|auto].
Qed.
Lemma sort_sorted l : desc (sort_desc l).
Proof. induction l as [|x l IH]; cbn; [constructor|]. now apply place_sorted. Qed.
Lemma sorted_app (l1 l2 : list tensor) : desc (l1 ++ l2) -> desc l1 /\ forall a b, In a l1 -> In b l2 -> (nbytes b <= nbytes a)%nat.
Proof.
  induction l1 as [|x l1 IH]; intros H; [split; [constructor|contradiction]|]. cbn in H. inversion H as [|? ? S F]; subst. destruct (IH S) as [I1 I2]. rewrite Forall_forall in F. split.
  - constructor; auto. apply Forall_forall. intros y Hy. apply F, in_or_app. now left.
  - intros a b [<-|Ha] Hb; [apply F, in_or_app; now right|]. auto.
Qed.
Definition shown (limit : option Z) (n : nat) : nat :=
  match limit with Some k => if (0 <? k)%Z then Z.to_nat k else n | None => n end.
Lemma top_firstn limit l : top limit l = firstn (shown limit (len l)) l.
Proof. unfold top, shown. destruct limit as [k|]; [destruct (0 <? k)%Z|]; auto; now rewrite firstn_all. Qed.
Lemma top_largest limit l : largest (shown limit (len l)) l (top limit (sort_desc l)).
Proof.
  assert (L : len (sort_desc l) = len l) by (apply Permutation_length, sort_perm).
  rewrite top_firstn, L. set (n := shown _ _). pose proof (sort_sorted l) as S. rewrite <- (firstn_skipn n (sort_desc l)) in S. apply sorted_app in S as [S1 S2].
  split; [rewrite firstn_length, L; auto|]. split; auto. exists (skipn n (sort_desc l)). split; auto. rewrite firstn_skipn. apply sort_perm.
Qed.
Lemma report_inv m os k c g limit p r : print_memory_report m os k c g limit = Ok (p, r) ->
  return_device_memory m = Ok r /\ exists head, (len head = 1%nat /\ entries head = [] /\ filter is_entry head = []) /\
  (tracked c g os = [] /\ p = head ++ [NoTensors] \/
   tracked c g os <> [] /\ let listed := top limit (sort_desc (tracked c g os)) in
   p = head ++ (if c then [CpuTotal (total_bytes (filter on_cpu listed) / gb) (len (filter on_cpu listed))] else []) ++
     TopHeader :: map (fun kt => Entry (fst kt) (snd kt) (INR (nbytes (snd kt)) / 1024^2)) (combine (seq 1 (len listed)) listed)).
Proof.
  unfold print_memory_report. destruct (return_device_memory m) as [r0|]; cbn [bind]; [|discriminate]. rewrite collect_tracked.
  match goal with |- bind ?x _ = _ -> _ => destruct x as [head|] eqn:E end; cbn [bind]; [|discriminate]. intros H.
  assert (HH : len head = 1%nat /\ entries head = [] /\ filter is_entry head = []).
  { destruct (_ && _)%bool in E; [destruct (m_gpu m k) as [[[? ?] ?]|]; [|discriminate]|]; inversion E; subst; auto. }
  destruct (tracked c g os) as [|t ts] eqn:ET.
  - assert (p = head ++ [NoTensors] /\ r0 = r) as [-> ->] by (split; congruence). split; auto. exists head. auto.
  - cbv zeta in H. split; [congruence|]. exists head. split; auto. right. split; [discriminate|]. cbv zeta. apply ok_eq, (f_equal fst) in H. cbn [fst] in H. rewrite <- H. reflexivity.
Qed.
Lemma entries_combine l : forall s, entries (map (fun kt => Entry (fst kt) (snd kt) (INR (nbytes (snd kt)) / 1024^2)) (combine (seq s (len l)) l)) = l.
Proof. induction l as [|t l IH]; intros s; auto. cbn [len seq combine map]. unfold entries in *. cbn [flat_map fst snd app]. f_equal. apply IH. Qed.
Lemma entries_app a b : entries (a ++ b) = entries a ++ entries b.
Proof. apply flat_map_app. Qed.
(** The listing: the largest tensors first, as many as the limit allows. *)
Lemma pC86_listing : forall m objects device_index include_cpu include_cuda limit p r,
  print_memory_report m objects device_index include_cpu include_cuda limit = Ok (p, r) ->
  let all := tracked include_cpu include_cuda objects in
  return_device_memory m = Ok r /\
  largest (match limit with Some k => if (0 <? k)%Z then Z.to_nat k else List.length all | None => List.length all end) all (entries p).
Proof.
  intros m os k c g limit p r H. cbv zeta. apply report_inv in H as (Hr & head & (_ & He & _) & [[E ->]|[N ->]]); split; auto.
  - rewrite E, entries_app, He. cbn [entries flat_map app]. split; [cbn [len]; now rewrite Nat.min_0_r|]. split; [constructor|]. exists []. split; [constructor|contradiction].
  - cbv zeta. rewrite !entries_app, He. cbn [app]. replace (entries (if c then _ else _)) with (@nil tensor) by (destruct c; reflexivity).
    rewrite (entries_app [TopHeader] _ : entries (TopHeader :: _) = _). cbn [entries flat_map app]. rewrite entries_combine. apply top_largest.
Qed.

Lemma number_combine l : forall s i k t mb, nth_error (map (fun kt => Entry (fst kt) (snd kt) (INR (nbytes (snd kt)) / 1024^2)) (combine (seq s (len l)) l)) i = Some (Entry k t mb) ->
  k = (s + i)%nat /\ nth_error l i = Some t /\ mb * 1024^2 = INR (nbytes t).
Proof.
  induction l as [|a l IH]; intros s i k t mb H; [destruct i; discriminate|]. cbn [len seq combine map] in H. destruct i as [|i].
  - cbn [nth_error fst snd] in H. assert (K : k = s /\ t = a /\ mb = INR (nbytes a) / 1024^2) by (repeat split; congruence). destruct K as (-> & -> & ->). split; [lia|]. split; auto. field.
  - cbn [nth_error] in *. apply IH in H as (-> & H). split; [lia|auto].
Qed.
Lemma only_entries l : forall s, let es := map (fun kt => Entry (fst kt) (snd kt) (INR (nbytes (snd kt)) / 1024^2)) (combine (seq s (len l)) l) in filter is_entry es = es.
Proof. induction l as [|a l IH]; intros s; auto. cbn [len seq combine map filter is_entry]. cbv zeta. f_equal. apply IH. Qed.
(** The lines are numbered from 1 and show megabytes of 1024^2 bytes. *)
Lemma pC86_entries : forall m objects device_index include_cpu include_cuda limit p r i k t mb,
  print_memory_report m objects device_index include_cpu include_cuda limit = Ok (p, r) ->
  nth_error (filter is_entry p) i = Some (Entry k t mb) ->
  k = S i /\ nth_error (entries p) i = Some t /\ mb * 1024^2 = INR (t_elements t * t_element_size t).
Proof.
  intros m os d c g limit p r i k t mb H E. apply report_inv in H as (_ & head & (_ & He & Hf) & [[_ ->]|[_ ->]]).
  - rewrite filter_app, Hf in E. destruct i; discriminate.
  - cbv zeta in *. set (listed := top _ _) in *. rewrite !filter_app, Hf in E. replace (filter is_entry (if c then _ else _)) with (@nil printed) in E by (destruct c; reflexivity).
    cbn [app filter is_entry] in E. rewrite only_entries in E. apply number_combine in E as (-> & E & M). split; [lia|]. split; [|exact M].
    rewrite !entries_app, He. replace (entries (if c then _ else _)) with (@nil tensor) by (destruct c; reflexivity).
    rewrite (entries_app [TopHeader] _ : entries (TopHeader :: _) = _). cbn [entries flat_map app]. now rewrite entries_combine.
Qed.
Lemma total_app a b : total_bytes (a ++ b) = total_bytes a + total_bytes b.
Proof. unfold total_bytes. now rewrite map_app, sum_list_app. Qed.
Lemma total_nonneg a : 0 <= total_bytes a.
Proof. unfold total_bytes. induction a as [|t a IH]; [apply Rle_refl|]. cbn [map]. rewrite sum_list_cons. pose proof (pos_INR (nbytes t)). lra. Qed.
Lemma total_perm a b : Permutation a b -> total_bytes a = total_bytes b.
Proof. unfold total_bytes. induction 1; cbn [map]; rewrite ?sum_list_cons; [reflexivity|rewrite IHPermutation; reflexivity|ring|congruence]. Qed.
Lemma filter_perm {A} (f : A -> bool) a b : Permutation a b -> Permutation (filter f a) (filter f b).
Proof. induction 1; cbn [filter]; auto; repeat match goal with |- context[f ?x] => destruct (f x) end; try constructor; auto. eapply Permutation_trans; eauto. Qed.
Lemma cpu_line m os d c g limit p r : print_memory_report m os d c g limit = Ok (p, r) ->
  forall x n, In (CpuTotal x n) p <-> c = true /\ tracked c g os <> [] /\
    let listed := top limit (sort_desc (tracked c g os)) in x = total_bytes (filter on_cpu listed) / gb /\ n = len (filter on_cpu listed).
Proof.
  intros H x n. unfold print_memory_report in H. destruct (return_device_memory m) as [r0|]; cbn [bind] in H; [|discriminate]. rewrite collect_tracked in H.
  match type of H with bind ?x _ = _ => destruct x as [head|] eqn:E end; cbn [bind] in H; [|discriminate].
  assert (HH : ~ In (CpuTotal x n) head).
  { destruct (_ && _)%bool in E; [destruct (m_gpu m d) as [[[? ?] ?]|]; [|discriminate]|]; inversion E; subst; intros [K|[]]; discriminate. }
  assert (HE : forall l s, ~ In (CpuTotal x n) (map (fun kt => Entry (fst kt) (snd kt) (INR (nbytes (snd kt)) / 1024^2)) (combine (seq s (len l)) l))).
  { intros l s K. apply in_map_iff in K as (kt & K & _). discriminate. }
  destruct (tracked c g os) as [|t ts].
  - apply ok_eq in H. assert (p = head ++ [NoTensors]) as -> by congruence. split.
    + intros K. apply in_app_or in K as [K|[K|[]]]; [contradiction|discriminate].
    + intros (_ & K & _). contradiction.
  - cbv zeta in *. set (listed := top _ _) in *. apply ok_eq in H. apply (f_equal fst) in H. cbn [fst] in H. subst p. split.
    + intros K. apply in_app_or in K as [K|K]; [contradiction|]. destruct c.
      * cbn [app] in K. destruct K as [K|[K|K]]; [|discriminate|now apply HE in K]. split; auto. split; [discriminate|]. unfold total_bytes. split; congruence.
      * cbn [app] in K. destruct K as [K|K]; [discriminate|now apply HE in K].
    + intros (-> & _ & -> & ->). apply in_or_app. right. left. reflexivity.
Qed.
(** Without a limit the CPU line shows the memory of all CPU tensors, ... *)
Lemma pC86_cpu_total : forall m objects device_index include_cuda limit p r,
  print_memory_report m objects device_index true include_cuda limit = Ok (p, r) ->
  (limit = None \/ exists k, limit = Some k /\ (k <= 0)%Z) ->
  tracked true include_cuda objects <> [] -> Forall named_by_kind (tensors_of objects) ->
  let cpu := filter (fun t => String.eqb (t_kind t) "cpu") (tensors_of objects) in
  forall x n, In (CpuTotal x n) p <-> x * 1024^3 = total_bytes cpu /\ n = List.length cpu.
Proof.
  intros m os d g limit p r H HL HN HK. cbv zeta. intros x n. rewrite (cpu_line _ _ _ _ _ _ _ _ H x n). cbv zeta.
  assert (T : top limit (sort_desc (tracked true g os)) = sort_desc (tracked true g os)).
  { destruct HL as [->|(k & -> & Hk)]; auto. cbn. apply Z.ltb_ge in Hk. now rewrite Hk. }
  rewrite T. pose proof (filter_perm on_cpu _ _ (sort_perm (tracked true g os))) as P.
  assert (F : filter on_cpu (tracked true g os) = filter (fun t => String.eqb (t_kind t) "cpu") (tensors_of os)).
  { unfold tracked. rewrite Forall_forall in HK. induction (tensors_of os) as [|t l IH]; auto. cbn [filter]. specialize (IH (fun y Hy => HK y (or_intror Hy))).
    pose proof (HK t (or_introl eq_refl)) as Ht. unfold named_by_kind in Ht. unfold admits at 1. destruct (String.eqb_spec (t_kind t) "cpu") as [E|E].
    - apply Ht in E as E'. cbn [implb andb]. replace (String.eqb (t_kind t) "cuda") with false by (symmetry; rewrite E; reflexivity). cbn [implb andb filter]. rewrite E', IH. reflexivity.
    - cbn [implb andb]. destruct (implb _ g); cbn [filter]; auto. destruct (on_cpu t); auto. exfalso. apply E, Ht. reflexivity. }
  rewrite F in P. rewrite (total_perm _ _ P), (Permutation_length P). fold gb. pose proof gb_pos. split.
  - intros (_ & _ & -> & ->). split; auto. field. lra.
  - intros [E ->]. split; auto. split; auto. split; auto. rewrite <- E. field. lra.
Qed.
(** ... with a limit at most that. *)
Lemma pC86_cpu_total_bound : forall m objects device_index include_cuda limit p r x n,
  print_memory_report m objects device_index true include_cuda limit = Ok (p, r) ->
  Forall named_by_kind (tensors_of objects) -> In (CpuTotal x n) p ->
  0 <= x * 1024^3 <= total_bytes (filter (fun t => String.eqb (t_kind t) "cpu") (tensors_of objects)).
Proof.
  intros m os d g limit p r x n H HK Hin. apply (cpu_line _ _ _ _ _ _ _ _ H) in Hin as (_ & _ & -> & ->). fold gb. pose proof gb_pos.
  match goal with |- 0 <= ?a / gb * gb <= _ => replace (a / gb * gb) with a by (field; lra) end. split; [apply total_nonneg|].
  rewrite top_firstn. set (k := shown _ _). pose proof (filter_perm on_cpu _ _ (sort_perm (tracked true g os))) as P.
  rewrite <- (firstn_skipn k (sort_desc (tracked true g os))), filter_app in P. apply total_perm in P. rewrite total_app in P.
  assert (B : total_bytes (filter on_cpu (tracked true g os)) <= total_bytes (filter (fun t => String.eqb (t_kind t) "cpu") (tensors_of os))).
  { clear P k. unfold tracked. rewrite Forall_forall in HK. induction (tensors_of os) as [|t l IH]; [cbn; lra|]. specialize (IH (fun y Hy => HK y (or_intror Hy))).
    pose proof (HK t (or_introl eq_refl)) as Ht. unfold named_by_kind in Ht. cbn [filter]. destruct (String.eqb_spec (t_kind t) "cpu") as [E|E].
    - assert (G : total_bytes (t :: filter (fun t => String.eqb (t_kind t) "cpu") l) = INR (nbytes t) + total_bytes (filter (fun t => String.eqb (t_kind t) "cpu") l)) by (unfold total_bytes; cbn [map]; now rewrite sum_list_cons).
      rewrite G. pose proof (pos_INR (nbytes t)). destruct (admits true g t); cbn [filter]; [|lra]. destruct (on_cpu t); [|lra].
      assert (G2 : total_bytes (t :: filter on_cpu (filter (admits true g) l)) = INR (nbytes t) + total_bytes (filter on_cpu (filter (admits true g) l))) by (unfold total_bytes; cbn [map]; now rewrite sum_list_cons).
      rewrite G2. lra.
    - destruct (admits true g t); cbn [filter]; auto. destruct (on_cpu t); auto. exfalso. apply E, Ht. reflexivity. }
  pose proof (total_nonneg (filter on_cpu (skipn k (sort_desc (tracked true g os))))). lra.
Qed.
Definition ex_tensor (bytes : nat) : tensor := Tensor "image" "cpu" "cpu" "torch.float64" [bytes] bytes 1 false.
Definition ex_machine : machine := Machine initial false (Some (8 * 1024^3, 4 * 1024^3)) None (fun _ => None).
(** The line says "total" but with the default limit of five it counts only the five listed tensors. *)
Lemma pC86_cpu_total_refuted : exists m objects p r x n, sane m /\ Forall named_by_kind (tensors_of objects) /\
  print_memory_report m objects 0 true true (Some 5%Z) = Ok (p, r) /\ In (CpuTotal x n) p /\
  x * 1024^3 < total_bytes (filter (fun t => String.eqb (t_kind t) "cpu") (tensors_of objects)).
Proof.
  exists ex_machine, (map (fun b => ATensor (ex_tensor b)) [1;2;3;4;5;6]%nat). do 4 eexists.
  split; [split; [intros t a E; unfold ex_machine in E; cbn [m_psutil] in E; assert (t = 8 * 1024^3 /\ a = 4 * 1024^3) as [-> ->] by (split; congruence); lra|intros; discriminate]|].
  split; [repeat constructor|]. split; [reflexivity|]. split; [right; left; reflexivity|]. fold gb. pose proof gb_pos.
  match goal with |- ?a / gb * gb < _ => replace (a / gb * gb) with a by (field; lra) end. unfold total_bytes, sum_list, nbytes. cbn. change (Pos.to_nat 5) with 5%nat. cbn. lra.
Qed.
(** The GPU block: exactly when the GPU is the configured device and not excluded. *)
Lemma pC86_gpu_block : forall m objects device_index include_cpu include_cuda limit p r,
  print_memory_report m objects device_index include_cpu include_cuda limit = Ok (p, r) ->
  ((selected (m_devices m) = "cuda"%string /\ include_cuda = true) <-> exists total allocated reserved free use, In (GpuStatus device_index total allocated reserved free use) p) /\
  (forall k total allocated reserved free use, In (GpuStatus k total allocated reserved free use) p ->
     k = device_index /\ free = total - reserved /\ (total <> 0 -> use = 100 * allocated / total) /\
     m_gpu m k = Some (total * 1024^3, allocated * 1024^3, reserved * 1024^3)).
Proof.
  intros m os d c g limit p r H. unfold print_memory_report, get_selected_device in H. destruct (return_device_memory m) as [r0|]; cbn [bind] in H; [|discriminate].
  match type of H with bind ?x _ = _ => destruct x as [head|] eqn:E end; cbn [bind] in H; [|discriminate].
  assert (HP : forall k a1 a2 a3 a4 a5, In (GpuStatus k a1 a2 a3 a4 a5) p <-> In (GpuStatus k a1 a2 a3 a4 a5) head).
  { intros k a1 a2 a3 a4 a5. destruct (collect c g os) as [|t ts].
    - apply ok_eq, (f_equal fst) in H. cbn [fst] in H. subst p. rewrite in_app_iff. split; [intros [K|[K|[]]]; [auto|discriminate]|auto].
    - cbv zeta in H. apply ok_eq, (f_equal fst) in H. cbn [fst] in H. subst p. rewrite in_app_iff. split; [|auto]. intros [K|K]; auto. exfalso.
      apply in_app_or in K as [K|[K|K]]; [destruct c; [destruct K as [K|[]]; discriminate|destruct K]|discriminate|].
      apply in_map_iff in K as (kt & K & _). discriminate. }
  pose proof gb_pos as G. fold gb. split.
  - split.
    + intros [S ->]. rewrite S in E. cbn [String.eqb Ascii.eqb Bool.eqb andb] in E. destruct (m_gpu m d) as [[[t a] s]|]; [|discriminate]. apply ok_eq in E. subst head. do 5 eexists. apply HP. left. reflexivity.
    + intros (t & a & s & f & u & K). apply HP in K. destruct (String.eqb_spec (selected (m_devices m)) "cuda") as [S|S], g; cbn [andb] in E; auto; inversion E; subst head; destruct K as [K|[]]; discriminate.
  - intros k t a s f u K. apply HP in K. destruct (_ && _)%bool in E; [|inversion E; subst head; destruct K as [K|[]]; discriminate].
    destruct (m_gpu m d) as [[[t0 a0] s0]|] eqn:EG; [|discriminate]. apply ok_eq in E. subst head. destruct K as [K|[]].
    assert (J : k = d /\ t = t0 / gb /\ a = a0 / gb /\ s = s0 / gb /\ f = t0 / gb - s0 / gb /\ u = (if Req_EM_T (t0 / gb) 0 then 0 else a0 / gb / (t0 / gb) * 100)) by (repeat split; congruence).
    destruct J as (-> & -> & -> & -> & -> & ->). split; auto. split; auto. split.
    + intros NZ. destruct (Req_EM_T (t0 / gb) 0); [contradiction|]. unfold Rdiv. ring.
    + rewrite EG. f_equal. f_equal; [f_equal|]; field; lra.
Qed.
(** A machine with a listing of two of three tensors. *)
Lemma xC86_listing : exists p r, sane ex_machine /\
  print_memory_report ex_machine [ATensor (ex_tensor 3); Other; Raises; ATensor (ex_tensor 7); ATensor (ex_tensor 5)] 0 true true (Some 2%Z) = Ok (p, r) /\
  map nbytes (entries p) = [7; 5]%nat /\ r_available r = 8 /\ r_free r = 4.
Proof.
  do 2 eexists. split; [split; [intros t a E; unfold ex_machine in E; cbn [m_psutil] in E; assert (t = 8 * 1024^3 /\ a = 4 * 1024^3) as [-> ->] by (split; congruence); lra|intros; discriminate]|].
  split; [reflexivity|]. split; [reflexivity|]. cbn [r_available r_free]. pose proof gb_pos. fold gb. split; field; lra.
Qed.
