(** * Proofs about MRender: the front door (C36) and the automatic method (C37). *)
From Verif Require Import Vec Spec MMotion MLaue MMesh MStrain MBeam MPolycrystal SPolycrystal MDetector SDetector.
From Verif Require Import MRender SRender PLaue PBeam PPolycrystal3 PDetector PDetector2 PDetector3 PDetector4 PRender PRender2 PRenderEx.
Open Scope R_scope.
Local Notation len := List.length.

(** ** Shapes *)
Lemma airy_batch_shape z j1 d psf n im rows im' : airy_batch z j1 d psf n im rows = Ok im' -> has_shape im' (f_n im) (f_h im) (f_w im).
Proof.
  unfold airy_batch. destruct (airy_kernels _ _ _ _ _); cbn [bind]; [|discriminate]. apply index_put_shape.
Qed.
Lemma airy_loop_shape z j1 d psf n bs : forall im im', airy_loop z j1 d psf n im bs = Ok im' -> has_shape im' (f_n im) (f_h im) (f_w im).
Proof.
  induction bs as [|b bs IH]; cbn [airy_loop]; intros im im' H.
  - inversion H; subst. repeat split.
  - destruct (airy_batch _ _ _ _ _ _ _) as [im1|] eqn:E; cbn [bind] in H; [|discriminate].
    apply airy_batch_shape in E as (A & B & C). apply IH in H as (A' & B' & C'). repeat split; congruence.
Qed.
Lemma airy_shape z j1 as_ d av rows n im : render_airy z j1 as_ d av rows n = Ok im -> has_shape im n (d_nz d) (d_ny d).
Proof.
  unfold render_airy. destruct rows as [|r rows]; [intros H; inversion H; subst; repeat split|].
  destruct (psf_kernel d) as [k|]; cbn [bind]; [|discriminate].
  destruct (gather _ _) as [s|]; cbn [bind]; [|discriminate]. destruct (airy_batches _ _ _ _) as [bs|]; [|discriminate].
  destruct (airy_loop _ _ _ _ _ _ _) as [im0|] eqn:E; cbn [bind]; [|discriminate].
  apply airy_loop_shape in E. intros H; inversion H; subst. exact E.
Qed.
Lemma macro_shape e d b me m rows n im : render_macro e d b me m rows n = Ok im -> has_shape im n (d_nz d) (d_ny d).
Proof.
  unfold render_macro. destruct rows as [|r rows]; [intros H; inversion H; subst; repeat split|].
  destruct (psf_kernel d) as [k|]; cbn [bind]; [|discriminate].
  repeat (match goal with |- context[traverse ?f ?l] => destruct (traverse f l); cbn [bind]; [|discriminate] end).
  destruct (index_put _ _); cbn [bind]; [|discriminate]. intros H; inversion H; subst. repeat split.
Qed.
Lemma gauss_shape e d rows n im : micro_method e d rows n = Ok im -> has_shape im n (d_nz d) (d_ny d).
Proof. rewrite micro_flat. intros H. apply index_put_shape in H. exact H. Qed.

Lemma render_inv e d pd frames m ml mi im out : render e d pd frames m ml mi = Ok (im, out) ->
  project (re_z e) d pd (nframes frames) = Ok out.
Proof.
  unfold render. cbv zeta. fold (nframes frames). destruct (project _ _ _ _) as [o|]; [|discriminate]. cbn [bind].
  match goal with |- (let* im := ?x in _) = _ -> _ => destruct x; cbn [bind]; [|discriminate] end.
  intros H; inversion H; subst; auto.
Qed.
Lemma nframes_max frames : nframes frames = Z.max 1 frames.
Proof. unfold nframes. destruct (Z.ltb_spec frames 1); lia. Qed.

(** Whatever the method, a rendered image has max(1, frames) frames of the shape of
    the pixel grid. *)
Lemma pC36_shape : forall e d pd frames method ml mi im out, render e d pd frames method ml mi = Ok (im, out) ->
  has_shape im (Z.to_nat (Z.max 1 frames)) (d_nz d) (d_ny d).
Proof.
  intros e d pd frames m ml mi im out. rewrite <- nframes_max. unfold render. cbv zeta. fold (nframes frames).
  destruct (project _ _ _ _) as [o|]; [|discriminate]. cbn [bind].
  destruct (String.eqb m "macro").
  { unfold macro_method. destruct (render_macro _ _ _ _ _ _ _) eqn:E; cbn [bind]; [|discriminate].
    intros H; inversion H; subst. eapply macro_shape; eauto. }
  destruct (String.eqb m "micro").
  { destruct (micro_method _ _ _ _) eqn:E; cbn [bind]; [|discriminate]. intros H; inversion H; subst. eapply gauss_shape; eauto. }
  destruct (String.eqb m "nano").
  { unfold nano_method. destruct (render_airy _ _ _ _ _ _ _) eqn:E; cbn [bind]; [|discriminate].
    intros H; inversion H; subst. eapply airy_shape; eauto. }
  destruct (String.eqb m "auto"); [|discriminate].
  destruct (macro_method _ _ _ _ _); cbn [bind]; [|discriminate].
  destruct (micro_method _ _ _ _); cbn [bind]; [|discriminate].
  destruct (nano_method _ _ _ _); cbn [bind]; [|discriminate].
  intros H; inversion H; subst. repeat split.
Qed.
(** The second component of the result is what peaks_detector_intersection returns for
    the clamped frame count. *)
Lemma pC36_dictionary : forall e d pd frames method ml mi im out, render e d pd frames method ml mi = Ok (im, out) ->
  project (re_z e) d pd (Z.max 1 frames) = Ok out.
Proof. intros e d pd frames m ml mi im out H. rewrite <- nframes_max. eapply render_inv; eauto. Qed.
(** Any other method string raises ValueError. *)
Lemma pC36_unknown_method : forall e d pd frames method ml mi, fresh pd ->
  ~ In method ["macro"; "micro"; "nano"; "auto"]%string -> render e d pd frames method ml mi = Err ValueError.
Proof.
  intros e d pd frames m ml mi Hf Hm. unfold render. cbv zeta. fold (nframes frames).
  destruct (project_ok (re_z e) d pd (nframes frames)) as [out Ho].
  { destruct Hf as [_ Hl]. eapply Forall_impl; [|exact Hl]. cbn. intros; lia. }
  rewrite Ho. cbn [bind].
  assert (N : forall s, In s ["macro"; "micro"; "nano"; "auto"]%string -> String.eqb m s = false).
  { intros s Hs. apply String.eqb_neq. intros ->. auto. }
  rewrite !N by (cbn; tauto). reflexivity.
Qed.
Lemma render_no_rows e d pd frames m ml mi out : project (re_z e) d pd (nframes frames) = Ok out -> pd_peaks out = [] ->
  In m ["macro"; "micro"; "nano"; "auto"]%string ->
  exists im, render e d pd frames m ml mi = Ok (im, out) /\ blank im.
Proof.
  intros Ho He Hm. unfold render. cbv zeta. fold (nframes frames). rewrite Ho. cbn [bind]. rewrite He.
  assert (Z : forall n, blank (zeros3 n (d_nz d) (d_ny d))) by (intros n f i j _; reflexivity).
  cbn [In] in Hm. destruct Hm as [<-|[<-|[<-|[<-|[]]]]]; cbn [String.eqb Ascii.eqb Bool.eqb].
  - unfold macro_method, render_macro. cbn [bind]. eauto.
  - rewrite micro_flat. cbn [map List.concat]. rewrite index_put_nil. cbn [bind]. eauto.
  - unfold nano_method, render_airy. cbn [bind]. eauto.
  - cbn [filter]. unfold macro_method, render_macro, nano_method, render_airy. rewrite micro_flat. cbn [map List.concat]. rewrite index_put_nil.
    cbn [bind]. eexists. split; [reflexivity|]. intros f i j _. cbn. now rewrite !nadd_0_l.
Qed.
(** When no peak is visible every supported method returns blank frames. *)
Lemma pC36_nothing_visible : forall e d pd frames method ml mi out,
  In method ["macro"; "micro"; "nano"; "auto"]%string ->
  project (re_z e) d pd (Z.max 1 frames) = Ok out -> pd_peaks out = [] ->
  exists im, render e d pd frames method ml mi = Ok (im, out) /\
    has_shape im (Z.to_nat (Z.max 1 frames)) (d_nz d) (d_ny d) /\ blank im.
Proof.
  intros e d pd frames m ml mi out Hm Ho He. rewrite <- nframes_max in *.
  destruct (render_no_rows e d pd frames m ml mi out Ho He Hm) as (im & H & B). exists im. repeat split; auto;
  apply pC36_shape in H; rewrite <- nframes_max in H; apply H.
Qed.
(** The empty table: blank frames. *)
Lemma pC36_empty_table : forall e d pd frames method ml mi, pd_peaks pd = [] ->
  In method ["macro"; "micro"; "nano"; "auto"]%string ->
  exists im out, render e d pd frames method ml mi = Ok (im, out) /\
    has_shape im (Z.to_nat (Z.max 1 frames)) (d_nz d) (d_ny d) /\ blank im.
Proof.
  intros e d pd frames m ml mi He Hm. destruct (project_ok (re_z e) d pd (Z.max 1 frames)) as [out Ho]; [rewrite He; constructor|].
  destruct (pC36_nothing_visible e d pd frames m ml mi out Hm Ho) as (im & H).
  - apply project_inv in Ho as (-> & _). now rewrite He.
  - exists im, out. auto.
Qed.
(** A negative frame count, a table with visible peaks. *)
Lemma xC36_clamped : exists e d pd im out, built d /\ fresh pd /\ render e d pd (-5) "micro" None 1 = Ok (im, out) /\
  has_shape im 1 9 9 /\ pd_peaks out <> [].
Proof.
  destruct ex_world as (me & b & _). pose (e := ex_env 0 (fun _ => 0) (fun l => seq 0 (List.length l))).
  pose (d := flat 10 1 9 0 (2/100) 2). pose (ss := [Spot 4 4 (1/4) 1 1 0]). exists e, d, (spot_table ss me b).
  destruct (pC39_micro_never_fails e d (spot_table ss me b) (-5) None 1 (spot_fresh _ _ _)) as (im & out & H).
  exists im, out. split; [apply flat_built; [lra|lia]|]. split; [apply spot_fresh|]. split; auto.
  split; [apply pC36_shape in H; exact H|]. apply pC36_dictionary in H. unfold d in H.
  rewrite flat_project in H by (try lra; repeat constructor; cbn; lra). inversion H. cbn. discriminate.
Qed.

(** ** C37 *)
Lemma vol_fresh pd r : fresh pd -> In r (pd_peaks pd) -> volume_of pd r = ncol r 21.
Proof.
  intros [Hc Hl] Hin. unfold volume_of, field. rewrite Hc. idx_norm. rewrite Forall_forall in Hl. specialize (Hl _ Hin).
  unfold ncol. destruct (nth_error r 21) as [x|] eqn:E; [now rewrite (nth_error_nth _ _ _ E)|].
  apply nth_error_None in E. lia.
Qed.
Lemma vol_extend z d frames r : len r = 25%nat -> ncol (extend z d frames r) 21 = ncol r 21.
Proof. intros H. rewrite extend_eq by lia. destruct (get_intersection _ _ _ _) as [[? ?] ?]. now rewrite ncol_app_l by lia. Qed.
Lemma project_restrict z d pd frames out (p : list num -> bool) : fresh pd -> project z d pd frames = Ok out ->
  (forall r, len r = 25%nat -> p (extend z d frames r) = p r) ->
  project z d (with_peaks pd (filter p (pd_peaks pd))) frames = Ok (with_peaks out (filter p (pd_peaks out))).
Proof.
  intros Hf Ho Hp. destruct (project_ok z d (with_peaks pd (filter p (pd_peaks pd))) frames) as [o Hoo].
  { destruct Hf as [_ Hl]. cbn. rewrite Forall_forall in *. intros r Hr. apply filter_In in Hr as [Hr _]. rewrite (Hl _ Hr). auto. }
  rewrite Hoo. f_equal. apply project_inv in Hoo as (A1 & A2 & A3 & A4 & A5 & A6 & A7 & A8).
  apply project_inv in Ho as (B1 & B2 & B3 & B4 & B5 & B6 & B7 & B8). destruct o as [o1 o2 o3 o4 o5 o6 o7 o8], out as [q1 q2 q3 q4 q5 q6 q7 q8]. cbn [pd_peaks pd_columns pd_incident pd_wavelength pd_axis pd_mesh pd_motion pd_beam with_peaks] in *. subst. unfold with_peaks. cbn [pd_peaks pd_columns pd_incident pd_wavelength pd_axis pd_mesh pd_motion pd_beam]. f_equal.
  destruct Hf as [_ Hl]. clear - Hp Hl. induction Hl as [|r l Hr Hl' IH]; auto. specialize (Hp r Hr).
  cbn [filter]. destruct (p r) eqn:P; cbn [filter]; destruct (keepb z d frames r) eqn:K; cbn [map filter]; rewrite ?Hp, IH; auto.
Qed.
Lemma filter_ext_In {A} (p q : A -> bool) l : (forall x, In x l -> p x = q x) -> filter p l = filter q l.
Proof. intros H. now apply filter_ext_in. Qed.

(** The automatic image is the pixelwise sum of the macro image of the large grains,
    the micro image of the medium ones and the nano image of the small ones, each as
    rendered on its own; and it is produced exactly when all three are. *)
Lemma pC37_auto_is_sum : forall e d pd frames ml mi im out, fresh pd ->
  render e d pd frames "auto" ml mi = Ok (im, out) ->
  exists ma mid na o1 o2 o3,
    render e d (restrict (is_large (macro_limit_of d ml)) pd) frames "macro" ml mi = Ok (ma, o1) /\
    render e d (restrict (is_medium (macro_limit_of d ml) mi) pd) frames "micro" ml mi = Ok (mid, o2) /\
    render e d (restrict (is_small mi) pd) frames "nano" ml mi = Ok (na, o3) /\
    forall f i j, in_image im f i j -> f_at im f i j = nadd (nadd (f_at na f i j) (f_at ma f i j)) (f_at mid f i j).
Proof.
  intros e d pd frames ml mi im out Hf H. pose proof (render_inv _ _ _ _ _ _ _ _ _ H) as Ho. revert H.
  unfold render at 1. cbv zeta. fold (nframes frames). rewrite Ho. cbn [bind String.eqb Ascii.eqb Bool.eqb].
  change (match ml with Some x => x | None => default_macro_limit d end) with (macro_limit_of d ml).
  set (mac := macro_limit_of d ml).
  destruct (macro_method _ _ _ _ _) as [ma|] eqn:E1; cbn [bind]; [|discriminate].
  destruct (micro_method _ _ _ _) as [mid|] eqn:E2; cbn [bind]; [|discriminate].
  destruct (nano_method _ _ _ _) as [na|] eqn:E3; cbn [bind]; [|discriminate].
  intros H; inversion H; subst im; clear H.
  assert (R1 : restrict (is_large mac) pd = with_peaks pd (filter (large mac) (pd_peaks pd))).
  { unfold restrict. f_equal. apply filter_ext_In. intros r Hr. unfold is_large, large. now rewrite vol_fresh. }
  assert (R2 : restrict (is_medium mac mi) pd = with_peaks pd (filter (medium mac mi) (pd_peaks pd))).
  { unfold restrict. f_equal. apply filter_ext_In. intros r Hr. unfold is_medium, medium, is_large, large, is_small, small. now rewrite vol_fresh. }
  assert (R3 : restrict (is_small mi) pd = with_peaks pd (filter (small mi) (pd_peaks pd))).
  { unfold restrict. f_equal. apply filter_ext_In. intros r Hr. unfold is_small, small. now rewrite vol_fresh. }
  rewrite R1, R2, R3. exists ma, mid, na. do 3 eexists. unfold render. cbv zeta. fold (nframes frames).
  rewrite (project_restrict _ _ _ _ _ (large mac) Hf Ho) by (intros; unfold large; now rewrite vol_extend).
  rewrite (project_restrict _ _ _ _ _ (medium mac mi) Hf Ho) by (intros; unfold medium, large, small; now rewrite vol_extend).
  rewrite (project_restrict _ _ _ _ _ (small mi) Hf Ho) by (intros; unfold small; now rewrite vol_extend).
  cbn [bind String.eqb Ascii.eqb Bool.eqb with_peaks pd_peaks].
  unfold macro_method in *. cbn [with_peaks pd_beam pd_mesh pd_motion]. rewrite E1, E2, E3. cbn [bind].
  repeat split. intros f i j _. cbn [add3 f_at zeros3]. now rewrite nadd_0_l.
Qed.
Lemma pC37_auto_defined : forall e d pd frames ml mi ma mid na o1 o2 o3, fresh pd ->
  render e d (restrict (is_large (macro_limit_of d ml)) pd) frames "macro" ml mi = Ok (ma, o1) ->
  render e d (restrict (is_medium (macro_limit_of d ml) mi) pd) frames "micro" ml mi = Ok (mid, o2) ->
  render e d (restrict (is_small mi) pd) frames "nano" ml mi = Ok (na, o3) ->
  exists im out, render e d pd frames "auto" ml mi = Ok (im, out).
Proof.
  intros e d pd frames ml mi ma mid na o1 o2 o3 Hf H1 H2 H3.
  destruct (project_ok (re_z e) d pd (nframes frames)) as [out Ho].
  { destruct Hf as [_ Hl]. eapply Forall_impl; [|exact Hl]. cbn. intros; lia. }
  set (mac := macro_limit_of d ml) in *.
  assert (R1 : restrict (is_large mac) pd = with_peaks pd (filter (large mac) (pd_peaks pd))).
  { unfold restrict. f_equal. apply filter_ext_In. intros r Hr. unfold is_large, large. now rewrite vol_fresh. }
  assert (R2 : restrict (is_medium mac mi) pd = with_peaks pd (filter (medium mac mi) (pd_peaks pd))).
  { unfold restrict. f_equal. apply filter_ext_In. intros r Hr. unfold is_medium, medium, is_large, large, is_small, small. now rewrite vol_fresh. }
  assert (R3 : restrict (is_small mi) pd = with_peaks pd (filter (small mi) (pd_peaks pd))).
  { unfold restrict. f_equal. apply filter_ext_In. intros r Hr. unfold is_small, small. now rewrite vol_fresh. }
  rewrite R1 in H1. rewrite R2 in H2. rewrite R3 in H3. revert H1 H2 H3. unfold render. cbv zeta. fold (nframes frames).
  rewrite (project_restrict _ _ _ _ _ (large mac) Hf Ho) by (intros; unfold large; now rewrite vol_extend).
  rewrite (project_restrict _ _ _ _ _ (medium mac mi) Hf Ho) by (intros; unfold medium, large, small; now rewrite vol_extend).
  rewrite (project_restrict _ _ _ _ _ (small mi) Hf Ho) by (intros; unfold small; now rewrite vol_extend).
  rewrite Ho. cbn [bind String.eqb Ascii.eqb Bool.eqb with_peaks pd_peaks].
  change (match ml with Some x => x | None => default_macro_limit d end) with mac.
  unfold macro_method. cbn [with_peaks pd_beam pd_mesh pd_motion].
  destruct (render_macro _ _ _ _ _ _ _); cbn [bind]; [|discriminate]. intros _.
  destruct (micro_method _ _ _ _); cbn [bind]; [|discriminate]. intros _.
  destruct (nano_method _ _ _ _); cbn [bind]; [|discriminate]. intros _. eauto.
Qed.
(** With ordered limits every row falls in exactly one class. *)
Lemma pC37_exactly_one_class : forall mac mi pd r, mi <= mac ->
  (is_large mac pd r = true /\ is_medium mac mi pd r = false /\ is_small mi pd r = false) \/
  (is_large mac pd r = false /\ is_medium mac mi pd r = true /\ is_small mi pd r = false) \/
  (is_large mac pd r = false /\ is_medium mac mi pd r = false /\ is_small mi pd r = true).
Proof.
  intros mac mi pd r H. unfold is_medium, is_large, is_small. destruct (volume_of pd r) as [v| | |]; cbn; auto.
  destruct (Rleb mac v) eqn:A, (Rltb v mi) eqn:B; cbn; auto.
  apply Rleb_true in A. apply Rltb_true in B. lra.
Qed.
(** A row belongs to some class for all limits; it belongs to two (large and small)
    exactly when macro_limit <= volume < micro_limit. *)
Lemma pC37_double_class : forall mac mi pd r,
  (is_large mac pd r = true \/ is_medium mac mi pd r = true \/ is_small mi pd r = true) /\
  (is_medium mac mi pd r = true -> is_large mac pd r = false /\ is_small mi pd r = false) /\
  (is_large mac pd r = true /\ is_small mi pd r = true <-> exists v, volume_of pd r = Fin v /\ mac <= v < mi).
Proof.
  intros mac mi pd r. unfold is_medium. split; [|split].
  - destruct (is_large mac pd r), (is_small mi pd r); auto.
  - destruct (is_large mac pd r), (is_small mi pd r); auto.
  - unfold is_large, is_small. destruct (volume_of pd r) as [v| | |]; cbn.
    + rewrite Rleb_true, Rltb_true. split; [intros; exists v; auto|]. intros (w & E & H). inversion E; subst; auto.
    + split; [intros []; discriminate|intros (w & E & _); discriminate].
    + split; [intros []; discriminate|intros (w & E & _); discriminate].
    + split; [intros []; discriminate|intros (w & E & _); discriminate].
Qed.
(** The default limits are ordered exactly when no pixel side is below 0.1. *)
Lemma pC37_default_limits : forall d, 0 < d_py d -> 0 < d_pz d ->
  ((1/10)^3 <= macro_limit_of d None <-> 1/10 <= d_py d /\ 1/10 <= d_pz d).
Proof.
  intros d Hy Hz. unfold macro_limit_of. assert (H : 0 < Rmin (d_py d) (d_pz d)) by (apply Rmin_glb_lt; auto).
  set (m := Rmin _ _) in *.
  assert (A : (1/10)^3 <= m^3 <-> 1/10 <= m).
  { split; intros B.
    - destruct (Rle_dec (1/10) m); auto. exfalso. assert (m < 1/10) by lra.
      assert (m^3 < (1/10)^3) by (simpl; nra). lra.
    - apply pow_incr. lra. }
  rewrite A. unfold m. split.
  - intros B. pose proof (Rmin_l (d_py d) (d_pz d)). pose proof (Rmin_r (d_py d) (d_pz d)). lra.
  - intros [B C]. now apply Rmin_glb.
Qed.
(** Default limits on a detector with pixels of 0.05: a visible peak of volume 0.0005
    is rendered by macro and by nano. *)
Lemma pC37_partition_refuted : exists d pd r, built d /\ fresh pd /\ In r (pd_peaks pd) /\
  (exists z out, project z d pd 1 = Ok out /\ pd_peaks out <> []) /\
  is_large (macro_limit_of d None) pd r = true /\ is_small ((1/10)^3) pd r = true.
Proof.
  destruct ex_world as (me & b & _). pose (d := flat 10 (5/100) 9 0 (2/100) 2). pose (s := Spot (1/10) (1/10) (1/4) 1 (5/10000) 0).
  exists d, (spot_table [s] me b), (spot_row s). split; [apply flat_built; [lra|lia]|]. split; [apply spot_fresh|]. split; [left; reflexivity|]. split.
  - exists false, (projected_table 1 [s] me b). split; [|discriminate]. apply flat_project; try lra. repeat constructor; cbn; lra.
  - apply pC37_double_class. exists (5/10000). split; [reflexivity|]. cbn. rewrite Rmin_left by lra. lra.
Qed.
Lemma xC37_ordered : exists d, built d /\ (1/10)^3 <= macro_limit_of d None.
Proof.
  exists (flat 10 1 9 0 (2/100) 2). split; [apply flat_built; [lra|lia]|]. apply pC37_default_limits; cbn; lra.
Qed.
