(** * A disc of 40 pixels asks for a window of 160 pixels (C85). *)
From Verif Require Import Vec MMotion MLaue MMesh MScattering MStrain MBeam MPolycrystal SPolycrystal MDetector MClip MRender SRender MVerbose SVerbose SNano.
From Verif Require Import PDetector PDetector2 PDetector4 PRender PRenderEx PNano PNanoEx PNano4 PExtra PVerbose PRadius SDetector SRadius.
From Coq Require Import Permutation.
Open Scope list_scope. Open Scope R_scope.
Local Notation len := List.length.
Lemma wide_render j1 free x t : let e := ex_env free j1 sort_desc in exists pd im out, fresh pd /\ len (pd_peaks pd) = 1%nat /\
  render e nano_det pd 2 "nano" None 1 = Ok (im, out) /\ pd_peaks out = [disc_row t x] /\
  (forall r, In r (pd_peaks out) -> proper_disc out r /\ disc_radius nano_det out r = x).
Proof.
  intros e. destruct ex_world as (me & b & _). destruct nano_psf as (psf & Hpsf & _).
  set (ss := [disc_spot t x]). set (out := projected_table 2 ss me b).
  assert (Ho : project false nano_det (spot_table ss me b) 2 = Ok out).
  { apply flat_project; try lra. apply Forall_cons; [|apply Forall_nil]; unfold good_spot; cbn [disc_spot s_y s_h s_sf]; change (IZR 41) with 41; repeat split; lra. }
  assert (Hv : volumes_ok (spot_table ss me b)) by (apply volumes_spot; apply Forall_cons; [|apply Forall_nil]; cbn; lra).
  assert (Hr : forall r, In r (pd_peaks out) -> proper_disc out r /\ disc_radius nano_det out r = x).
  { intros r Hr. assert (r = disc_row t x) as -> by (cbn in Hr; destruct Hr as [<-|[]]; reflexivity).
    assert (E1 : read out (disc_row t x) "incident_angle" = 0) by reflexivity.
    assert (E2 : read out (disc_row t x) "scherrer_fwhm" = x / (11861/1000)) by reflexivity.
    split; [split; [|split]|].
    - eexists. reflexivity.
    - eexists. reflexivity.
    - rewrite E1, Rmult_0_l, cos_0. lra.
    - unfold disc_radius. rewrite E1, E2, Rmult_0_l, cos_0. change (d_c0 nano_det) with (V3 10 0 0). change (d_pz nano_det) with 1. rewrite (norm_sqrt_eq (V3 10 0 0) 10) by (vunf; lra). field. }
  destruct (nano_image e nano_det (spot_table ss me b) 2 out psf (spot_fresh _ _ _) Hv) as (R & _ & Him); auto.
  { apply flat_built; [lra|lia]. }
  { cbn; lra. } { lia. } { discriminate. } { intros r Hin. now apply Hr. } { right. intros r r' Hin Hin'. now rewrite (proj2 (Hr r Hin)), (proj2 (Hr r' Hin')). }
  specialize (Him e eq_refl eq_refl sort_permutes).
  eexists (spot_table ss me b), _, out. split; [apply spot_fresh|]. split; [reflexivity|]. split; [|split; [reflexivity|exact Hr]].
  unfold render. cbv zeta. change (2 <? 1)%Z with false. cbv iota. change (re_z e) with false. rewrite Ho. cbn [bind String.eqb Ascii.eqb Bool.eqb]. rewrite Him. reflexivity.
Qed.
Lemma xC85_limited : exists arg entry e d pd im out, permutes (re_argsort e) /\ fresh pd /\ 0 < d_pz d /\ resolve arg entry = true /\ INR (List.length (pd_peaks pd)) < 10^18 /\
  snd (render_io arg entry e d pd 2 "nano" None 1) = Ok (im, out) /\ (forall r, In r (pd_peaks out) -> proper_disc out r) /\
  In (RadiusLimited (Fin 160)) (fst (render_io arg entry e d pd 2 "nano" None 1)).
Proof.
  destruct (wide_render (fun _ => 1) 1 40 (1/4)) as (pd & im & out & Hf & HL & HR & HP & HD). set (e := ex_env 1 (fun _ => 1) sort_desc) in *.
  assert (Hp : permutes (re_argsort e)) by apply sort_permutes. assert (HN : INR (len (pd_peaks pd)) < 10^18) by (rewrite HL; cbn; lra).
  assert (HS : snd (render_io (Some true) None e nano_det pd 2 "nano" None 1) = Ok (im, out)) by (rewrite pC85_same_result; auto).
  assert (Hd : forall r, In r (pd_peaks out) -> proper_disc out r) by (intros r Hr; now apply HD).
  exists (Some true), None, e, nano_det, pd, im, out. split; [exact Hp|]. split; [exact Hf|]. split; [cbn; lra|]. split; [reflexivity|]. split; [exact HN|]. split; [exact HS|]. split; [exact Hd|].
  assert (PZ : 0 < d_pz nano_det) by (cbn; lra).
  pose proof (pC85_radius_note (Some true) None e nano_det pd 2 None 1 im out Hp Hf PZ eq_refl HN HS Hd) as (bs & Rs & P & F & L).
  enough (In (RadiusLimited (Fin 160)) (filter about_batches (fst (render_io (Some true) None e nano_det pd 2 "nano" None 1)))) as I by (now apply filter_In in I).
  destruct F as [|b r bs Rs (f & (HB & _) & HA) F]; [rewrite HP in P; cbn [List.concat] in P; apply Permutation_length in P; discriminate|].
  destruct HB as (q & Hq & Ef). assert (Hq' : In q (pd_peaks out)) by (apply (Permutation_in _ P); cbn [List.concat]; apply in_or_app; now left).
  rewrite (proj2 (HD q Hq')) in Ef. subst f. assert (Er : r = 160).
  { destruct HA as (k & -> & _ & HK). rewrite Rmax_left in * by lra. destruct k as [|k]; [cbn; lra|]. destruct (HK 0%nat ltac:(lia)) as (HK' & _). cbn in HK'. lra. }
  subst r. cbn [batch_log] in L. destruct L as (bl & pct & br & rest & -> & _). destruct (Rlt_dec 128 160); [|lra]. apply in_or_app. left. now left.
Qed.
