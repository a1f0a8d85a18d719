(** * C97: which columns of the table a picture is made from. *)
From Verif Require Import Vec MMotion MLaue MMesh MScattering MStrain MBeam MPolycrystal SPolycrystal MDetector SDetector MRender SRender SPassenger.
From Verif Require Import PMesh PPolycrystal PDetector PDetector2 PRender PJoin2.
From Coq Require Import FunctionalExtensionality String.
Open Scope list_scope. Open Scope R_scope.
Local Notation len := List.length.

(** ** Erasing columns *)
Section Erase.
Variable K : nat -> bool.
Fixpoint erase (j : nat) (r : list num) : list num :=
  match r with [] => [] | x :: xs => (if K j then x else NaN) :: erase (S j) xs end.
Lemma erase_nth r : forall i j, nth j (erase i r) NaN = if K (i + j) then nth j r NaN else NaN.
Proof.
  induction r as [|x xs IH]; intros i j.
  - cbn. destruct j; now destruct (K _).
  - destruct j as [|j]; cbn.
    + now rewrite Nat.add_0_r.
    + rewrite IH. now rewrite Nat.add_succ_comm.
Qed.
Lemma erase_len r : forall i, len (erase i r) = len r.
Proof. induction r; intros; cbn; auto. Qed.
Lemma erase_app r s : forall i, erase i (r ++ s) = erase i r ++ erase (i + len r) s.
Proof.
  induction r as [|x xs IH]; intros i; cbn.
  - now rewrite Nat.add_0_r.
  - f_equal. rewrite IH. now rewrite Nat.add_succ_comm.
Qed.
Lemma erase_eq r r' : forall i, len r = len r' -> (forall j, K (i + j) = true -> nth j r NaN = nth j r' NaN) -> erase i r = erase i r'.
Proof.
  revert r'. induction r as [|x xs IH]; intros [|y ys] i L H; try discriminate; auto. cbn in *. f_equal.
  - specialize (H 0%nat). rewrite Nat.add_0_r in H. destruct (K i); auto.
  - apply IH; [lia|]. intros j Hj. apply (H (S j)). now rewrite <- Nat.add_succ_comm.
Qed.
Definition bl (r : list num) : list num := erase 0 r.
Lemma ncol_bl r j : K j = true -> ncol (bl r) j = ncol r j.
Proof. intros H. unfold ncol, bl. rewrite erase_nth. cbn. now rewrite H. Qed.
Lemma fcol_bl r j : K j = true -> fcol (bl r) j = fcol r j.
Proof. intros H. unfold fcol. now rewrite ncol_bl. Qed.
End Erase.

(** ** Lists of results *)
Lemma traverse_map {A B C} (f : B -> result C) (g : A -> B) l : traverse f (map g l) = traverse (fun x => f (g x)) l.
Proof. induction l as [|x xs IH]; cbn; auto. destruct (f (g x)); cbn; auto. now rewrite IH. Qed.
Lemma traverse_ext {A B} (f g : A -> result B) l : (forall x, f x = g x) -> traverse f l = traverse g l.
Proof. intros H. induction l as [|x xs IH]; cbn; auto. now rewrite H, IH. Qed.
Definition mapr {A B} (f : A -> B) (r : result A) : result B := match r with Ok a => Ok (f a) | Err e => Err e end.
Lemma gather_map {A B} (f : A -> B) l idx : gather (map f l) idx = mapr (map f) (gather l idx).
Proof.
  unfold gather. induction idx as [|i xs IH]; cbn; auto. rewrite nth_error_map.
  destruct (nth_error l i); cbn; auto. rewrite IH.
  match goal with |- bind (mapr _ ?t) _ = mapr _ (bind ?t _) => destruct t end; reflexivity.
Qed.
Lemma existsb_map {A B} (f : B -> bool) (g : A -> B) l : existsb f (map g l) = existsb (fun x => f (g x)) l.
Proof. induction l; cbn; auto. now rewrite IHl. Qed.
Lemma existsb_same {A} (f g : A -> bool) l : (forall x, f x = g x) -> existsb f l = existsb g l.
Proof. intros H. induction l; cbn; auto. now rewrite H, IHl. Qed.
Lemma filter_same {A} (f g : A -> bool) l : (forall x, f x = g x) -> filter f l = filter g l.
Proof. intros H. induction l; cbn; auto. now rewrite H, IHl. Qed.
Lemma filter_map {A B} (f : B -> bool) (g : A -> B) l : filter f (map g l) = map g (filter (fun x => f (g x)) l).
Proof. induction l; cbn; auto. destruct (f (g a)); cbn; now rewrite IHl. Qed.
Lemma combine_map_l {A B C} (f : A -> B) (l : list A) : forall (m : list C), combine (map f l) m = map (fun x => (f (fst x), snd x)) (combine l m).
Proof. induction l; intros [|y ys]; cbn; auto. now rewrite IHl. Qed.
Lemma combine_map_r {A B C} (f : A -> B) (l : list A) : forall (m : list C), combine m (map f l) = map (fun x => (fst x, f (snd x))) (combine m l).
Proof. induction l; intros [|y ys]; cbn; auto. now rewrite IHl. Qed.

(** ** Rendering reads these columns only *)
Section Reads.
Variable K : nat -> bool.
Hypothesis K_read : forall j, In j [0; 6; 13; 14; 15; 21; 23; 25; 26; 27; 28; 29]%nat -> K j = true.
Local Notation b := (bl K).
Local Ltac rd := apply K_read; cbn; tauto.
Lemma pos_z_bl d r : pos_z d (b r) = pos_z d r.
Proof. unfold pos_z. rewrite fcol_bl; auto. rd. Qed.
Lemma pos_y_bl d r : pos_y d (b r) = pos_y d r.
Proof. unfold pos_y. rewrite fcol_bl; auto. rd. Qed.
Lemma strength_bl r : peak_intensity (b r) = peak_intensity r.
Proof. unfold peak_intensity. rewrite !ncol_bl; auto; rd. Qed.
Lemma frame_bl r : fcol (b r) 28 = fcol r 28.
Proof. apply fcol_bl. rd. Qed.
Lemma g_weight_bl d r : g_weight d (b r) = g_weight d r.
Proof. apply functional_extensionality. intros o. unfold g_weight. now rewrite pos_z_bl, pos_y_bl. Qed.
Lemma g_deposits_bl d r : g_deposits d (b r) = g_deposits d r.
Proof. unfold g_deposits. now rewrite g_weight_bl, pos_z_bl, pos_y_bl, strength_bl, frame_bl. Qed.
Lemma batches_map {A B} (f : A -> B) n l : batches n (map f l) = map (map f) (batches n l).
Proof. unfold batches. rewrite map_map, map_length. apply map_ext. intros k. now rewrite skipn_map, firstn_map. Qed.
Lemma render_gauss_bl d n rows frames : render_gauss d n (map b rows) frames = render_gauss d n rows frames.
Proof.
  unfold render_gauss. rewrite batches_map. generalize (zeros3 frames (d_nz d) (d_ny d)).
  induction (batches n rows) as [|x xs IH]; intros im; cbn; auto.
  rewrite map_map. rewrite (map_ext (fun r => g_deposits d (b r)) (g_deposits d)) by apply g_deposits_bl.
  destruct (index_put im _); cbn; auto.
Qed.

Lemma first_zero_bl z d r : first_zero z d (b r) = first_zero z d r.
Proof. unfold first_zero. rewrite !ncol_bl; auto; rd. Qed.
Lemma airy_memory_bl z d r : airy_memory z d (b r) = airy_memory z d r.
Proof. unfold airy_memory. now rewrite first_zero_bl. Qed.
Lemma airy_batches_map {A} (mem : A -> num) av (f : A -> A) : (forall x, mem (f x) = mem x) -> forall fuel l,
  airy_batches mem av (map f l) fuel = option_map (map (map f)) (airy_batches mem av l fuel).
Proof.
  intros H. induction fuel as [|n IH]; intros [|x xs]; auto.
  assert (M : map mem (map f (x :: xs)) = map mem (x :: xs)) by (rewrite map_map; apply map_ext; exact H).
  change (airy_batches mem av (map f (x :: xs)) (S n)) with
    (let bs := fit_count av (map mem (map f (x :: xs))) in
     option_map (cons (firstn bs (map f (x :: xs)))) (airy_batches mem av (skipn bs (map f (x :: xs))) n)).
  change (airy_batches mem av (x :: xs) (S n)) with
    (let bs := fit_count av (map mem (x :: xs)) in
     option_map (cons (firstn bs (x :: xs))) (airy_batches mem av (skipn bs (x :: xs)) n)).
  cbv zeta. rewrite M, skipn_map, firstn_map, IH.
  generalize (fit_count av (map mem (x :: xs))). intros k. destruct (airy_batches mem av (skipn k (x :: xs)) n); reflexivity.
Qed.
Lemma airy_batch_bl z j1 d psf frames im rows : airy_batch z j1 d psf frames im (map b rows) = airy_batch z j1 d psf frames im rows.
Proof.
  unfold airy_batch, airy_kernels. rewrite !map_map.
  rewrite (map_ext (fun r => first_zero z d (b r)) (first_zero z d)) by apply first_zero_bl.
  destruct (airy_radius d _) as [radius|e]; cbn [bind]; auto.
  match goal with |- context [let* ks := ?m in _] => destruct m as [ks|e] end; cbn [bind]; auto.
  f_equal. f_equal. apply map_ext. intros f. f_equal.
  rewrite combine_map_l, !combine_map_l, !map_map. cbn [fst snd].
  rewrite (map_ext (fun x => kscale (peak_intensity (b (fst x))) (snd x)) (fun rk => kscale (peak_intensity (fst rk)) (snd rk)))
    by (intros; now rewrite strength_bl).
  rewrite filter_map, map_map. cbn [fst snd].
  rewrite (filter_same (fun x => Reqb (fcol (b (fst x)) 28) (INR f)) (fun rk => Reqb (fcol (fst rk) 28) (INR f))) by (intros; now rewrite frame_bl).
  apply map_ext. intros x. now rewrite pos_z_bl, pos_y_bl.
Qed.
Lemma airy_loop_bl z j1 d psf frames bs : forall im, airy_loop z j1 d psf frames im (map (map b) bs) = airy_loop z j1 d psf frames im bs.
Proof.
  induction bs as [|x xs IH]; intros im; cbn; auto. rewrite airy_batch_bl. destruct (airy_batch z j1 d psf frames im x); cbn; auto.
Qed.
Lemma render_airy_body z j1 srt d av rows frames : rows <> [] -> render_airy z j1 srt d av rows frames =
  let* psf := psf_kernel d in
  let* sorted := gather rows (srt (map (airy_memory z d) rows)) in
  match airy_batches (airy_memory z d) av sorted (len sorted) with
  | None => Err RuntimeError
  | Some bs => let* im := airy_loop z j1 d psf frames (zeros3 frames (d_nz d) (d_ny d)) bs in Ok (conv3 psf im)
  end.
Proof. destruct rows; intros H; [contradiction|reflexivity]. Qed.
Lemma render_airy_bl z j1 srt d av rows frames : render_airy z j1 srt d av (map b rows) frames = render_airy z j1 srt d av rows frames.
Proof.
  destruct (list_eq_dec Nat.eq_dec [] (map (fun _ => 0%nat) rows)) as [E|E].
  { destruct rows; [reflexivity|discriminate]. }
  assert (N : rows <> []) by (intros ->; apply E; reflexivity).
  assert (N' : map b rows <> []) by (intros C; apply map_eq_nil in C; contradiction).
  rewrite !render_airy_body by assumption.
  destruct (psf_kernel d) as [psf|]; cbn [bind]; auto. rewrite map_map.
  rewrite (map_ext (fun r => airy_memory z d (b r)) (airy_memory z d)) by apply airy_memory_bl.
  rewrite gather_map. destruct (gather rows _) as [sorted|]; cbn [mapr bind]; auto.
  rewrite map_length, airy_batches_map by apply airy_memory_bl.
  destruct (airy_batches _ av sorted _) as [bs|]; cbn [option_map]; auto. rewrite airy_loop_bl. reflexivity.
Qed.

Lemma macro_deposits_bl e d bm me m k r : macro_deposits e d bm me m k (b r) = macro_deposits e d bm me m k r.
Proof.
  unfold macro_deposits, fvec. cbn [Nat.add].
  rewrite !fcol_bl by rd. rewrite ncol_bl by rd. reflexivity.
Qed.
Lemma render_macro_bl e d bm me m rows frames : render_macro e d bm me m (map b rows) frames = render_macro e d bm me m rows frames.
Proof.
  unfold render_macro. destruct rows as [|r0 rs]; auto. cbn [map]. change (b r0 :: map b rs) with (map b (r0 :: rs)). set (rows := r0 :: rs).
  destruct (psf_kernel d) as [psf|]; cbn [bind]; auto.
  rewrite map_length, combine_map_r, traverse_map. cbn [fst snd].
  rewrite (traverse_ext (fun x => macro_deposits e d bm me m (fst x) (b (snd x))) (fun kr => macro_deposits e d bm me m (fst kr) (snd kr)))
    by (intros; apply macro_deposits_bl).
  destruct (traverse _ (combine _ rows)) as [deps|]; cbn [bind]; auto.
  rewrite traverse_map.
  rewrite (traverse_ext (fun x => match wrap frames (ztrunc (fcol (b x) 28)) with Some _ => Ok tt | None => Err IndexError end)
    (fun r => match wrap frames (ztrunc (fcol r 28)) with Some _ => Ok tt | None => Err IndexError end)) by (intros; now rewrite frame_bl).
  destruct (traverse _ rows); cbn [bind]; auto. destruct (index_put _ _) as [im|]; cbn [bind]; auto.
  f_equal. f_equal. apply functional_extensionality. intros f. rewrite existsb_map.
  rewrite (existsb_same (fun x => match wrap frames (ztrunc (fcol (b x) 28)) with Some g => Nat.eqb f g | None => false end)
    (fun r => match wrap frames (ztrunc (fcol r 28)) with Some g => Nat.eqb f g | None => false end)) by (intros; now rewrite frame_bl).
  reflexivity.
Qed.
Lemma macro_beam e d bm bm' me m rows frames : b_halfspaces bm = b_halfspaces bm' -> render_macro e d bm me m rows frames = render_macro e d bm' me m rows frames.
Proof. intros H. unfold render_macro, macro_deposits. now rewrite H. Qed.
Lemma large_bl l r : large l (b r) = large l r.
Proof. unfold large. rewrite ncol_bl; auto. rd. Qed.
Lemma small_bl l r : MRender.small l (b r) = MRender.small l r.
Proof. unfold MRender.small. rewrite ncol_bl; auto. rd. Qed.
End Reads.
