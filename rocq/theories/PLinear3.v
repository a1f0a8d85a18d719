(** * C103: the conditions are met. *)
From Verif Require Import Vec Spec MMotion MLaue MMesh MScattering MStrain MBeam MPolycrystal SPolycrystal MDetector SDetector.
From Verif Require Import MRender SRender SNano SPassenger SLinear PLaue PScattering PBeam PDetector PDetector2 PRender PRender2 PRender2b PRenderEx PRender3 PNano PNanoEx PNano6 PJoin2 PLinear PLinear2.
From Coq Require Import String.
Open Scope list_scope. Open Scope R_scope.
Local Notation len := List.length.

(** Multiplying the structure factors of a table, as a case of [rescaled]. *)
Lemma xC103_table : forall c pd, fresh pd -> let pd' := scale_structure_factors c pd in
  fresh pd' /\ same_scene pd pd' /\ rescaled ["structure_factors"%string] c pd pd'.
Proof.
  intros c pd [C F] pd'. split; [|split].
  - split; [exact C|]. unfold pd', scale_structure_factors. cbn. rewrite Forall_map. eapply Forall_impl; [|exact F]. intros r H. cbn. now rewrite mapi_length.
  - repeat split.
  - unfold rescaled, pd', scale_structure_factors. cbn [pd_peaks with_peaks].
    assert (T : forall r t, field (with_peaks pd (map (mapi (fun j x => if Nat.eqb j 5 then nmul (Fin c) x else x)) (pd_peaks pd))) (mapi (fun j x => if Nat.eqb j 5 then nmul (Fin c) x else x) r) t =
      if existsb (String.eqb t) ["structure_factors"%string] then option_map (nmul (Fin c)) (field pd r t) else field pd r t).
    { intros r t. unfold field. cbn [pd_columns with_peaks]. rewrite C.
      destruct (index_of t column_names) as [j|] eqn:Ij; [|destruct (existsb _ _); reflexivity].
      rewrite mapi_nth_error. assert (E : Nat.eqb j 5 = existsb (String.eqb t) ["structure_factors"%string]).
      { apply index_of_nth in Ij. assert (J : (j < 25)%nat) by (change 25%nat with (len column_names); apply nth_error_Some; congruence).
        revert j J Ij.
        match goal with |- forall j, (j < 25)%nat -> @?P j => refine (below25 P _ _ _ _ _ _ _ _ _ _ _ _ _ _ _ _ _ _ _ _ _ _ _ _ _) end; cbv beta;
        intros Ij; cbn [nth_error column_names] in Ij; assert (Et := f_equal (fun o => match o with Some x => x | None => ""%string end) Ij); cbn in Et; subst t; reflexivity. }
      rewrite <- E. destruct (nth_error r j), (Nat.eqb j 5); reflexivity. }
    induction (pd_peaks pd) as [|r rs IH] at 2 3; cbn [map]; constructor; auto.
Qed.
(** Two discs, their structure factors doubled. *)
Lemma xC103_doubled : exists e d pd pd' im out im' out', fresh pd /\ fresh pd' /\ same_scene pd pd' /\ volumes_ok pd /\
  brightness_factor d "structure_factors" /\ rescaled ["structure_factors"%string] 2 pd pd' /\
  render e d pd 2 "nano" None 1 = Ok (im, out) /\ render e d pd' 2 "nano" None 1 = Ok (im', out') /\ brighter 2 im im' /\
  List.length (pd_peaks out) = 2%nat /\ exists im2 im2' o o', render e d pd 2 "micro" None 1 = Ok (im2, o) /\ render e d pd' 2 "micro" None 1 = Ok (im2', o').
Proof.
  destruct ex_world as (me & b & _). set (e := ex_env 0 (fun _ => 1) sort_desc). set (ss := [disc_spot (1/4) 3; disc_spot (3/4) 2]). set (out := projected_table 2 ss me b).
  assert (HP : project false nano_det (spot_table ss me b) 2 = Ok out).
  { apply flat_project; try lra. apply Forall_cons; [|apply Forall_cons; [|apply Forall_nil]]; unfold good_spot; cbn [disc_spot s_y s_h s_sf]; change (IZR 41) with 41; repeat split; lra. }
  assert (PD : forall t x, proper_disc out (disc_row t x) /\ disc_radius nano_det out (disc_row t x) = x).
  { intros t x. assert (E1 : read out (disc_row t x) "incident_angle" = 0) by reflexivity. assert (E2 : read out (disc_row t x) "scherrer_fwhm" = x / (11861/1000)) by reflexivity.
    split; [split; [eexists; reflexivity|]; split; [eexists; reflexivity|]; rewrite E1, Rmult_0_l, cos_0; lra|].
    unfold disc_radius. rewrite E1, E2, Rmult_0_l, cos_0. change (d_c0 nano_det) with (V3 10 0 0). change (d_pz nano_det) with 1. rewrite (norm_sqrt_eq (V3 10 0 0) 10) by (vunf; lra). field. }
  set (pd := spot_table ss me b). set (pd' := scale_structure_factors 2 pd).
  assert (Hf : fresh pd) by apply spot_fresh. destruct (xC103_table 2 pd Hf) as (Hf' & HS & HR). fold pd' in Hf', HS, HR.
  assert (HV : volumes_ok pd) by (apply volumes_spot; apply Forall_cons; [|apply Forall_cons; [|apply Forall_nil]]; cbn; lra).
  assert (HB : brightness_factor nano_det "structure_factors") by (left; split; reflexivity).
  destruct (pC100_whole_radii e nano_det pd 2 None 1 out Hf) as (im & Him).
  { apply flat_built; [lra|lia]. } { cbn; lra. } { apply sort_permutes. } { exact HP. }
  { change (pd_peaks out) with [disc_row (1/4) 3; disc_row (3/4) 2]. intros r [<-|[<-|[]]]; apply PD. }
  { change (pd_peaks out) with [disc_row (1/4) 3; disc_row (3/4) 2]. intros r [<-|[<-|[]]]; rewrite (proj2 (PD _ _)); [right; left; exists 12%Z; lra|left; lra]. }
  pose proof (pC103_linear e nano_det "structure_factors" 2 pd pd' 2 "nano" None 1 Hf Hf' HS ltac:(lra) HB HR (or_introl eq_refl)) as L.
  rewrite Him in L. destruct (render e nano_det pd' 2 "nano" None 1) as [[im' out']|] eqn:Him'; [|contradiction]. destruct L as [L _].
  exists e, nano_det, pd, pd', im, out, im', out'. repeat (split; [assumption|]). split; [reflexivity|].
  destruct (pC39_micro_never_fails e nano_det pd 2 None 1 Hf) as (i2 & o & H2). destruct (pC39_micro_never_fails e nano_det pd' 2 None 1 Hf') as (i2' & o' & H2').
  eauto 8.
Qed.
