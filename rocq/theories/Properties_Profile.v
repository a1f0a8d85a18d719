(** Generated by tools/gen_properties.py from PProfile.v: the property theorems,
    verbatim, each closed by [exact]. Contains nothing else. *)
From Verif Require Import Vec Spec MMotion MLaue MMesh MStrain MBeam MPolycrystal SPolycrystal MDetector SDetector MClip SClip.
From Verif Require Import MRender SRender SMacro SProfile PLaue PBeam PScattering PPolycrystal3 PDetector PDetector2 PDetector3 PDetector4 PClip PRender PRender2 PRenderEx PRender3 PKernel2 PKernel3 PMacro.
From Verif Require Import PProfile.
Open Scope R_scope.

(** The point-spread function blurs every frame with the normalised cut-off Gaussian. *)
Theorem C46_blur : forall d k im f g, d_sigma d <> 0 -> (0 <= d_max_radius d)%Z -> psf_kernel d = Ok k ->
  (forall i j, (i < f_h im)%nat -> (j < f_w im)%nat -> f_at im f i j = Fin (g (Z.of_nat i) (Z.of_nat j))) ->
  forall i j, f_at (conv3 k im) f i j = Fin (blur (d_sigma d) (psf_radius d) (f_h im) (f_w im) g (Z.of_nat i) (Z.of_nat j)).
Proof. exact pC46_blur. Qed.
Print Assumptions C46_blur.

(** A macro frame all of whose peaks are lit parts covering more than four pixels: every
    pixel is the blurred sum, over the frame's peaks, of intensity times lit volume times
    pixel area spread over the footprint in proportion to the thickness of the lit part
    along the scattered ray. *)
Theorem C79_thickness_profile : forall e d pd frames ml mi im out f vol B T, fresh pd -> built d -> 0 < d_zmax d -> 0 < d_ymax d ->
  non_collinear (d_c0 d) (d_c1 d) (d_c2 d) -> d_sigma d <> 0 -> (0 <= d_max_radius d)%Z ->
  render e d pd frames "macro" ml mi = Ok (im, out) ->
  (exists r, In r (pd_peaks out) /\ read out r "frame" = INR f) ->
  (forall k r, nth_error (pd_peaks out) k = Some r -> read out r "frame" = INR f -> profiled e d out r (vol k) (B k) (T k)) ->
  forall i j, f_at im f i j = Fin (blur (d_sigma d) (psf_radius d) (d_nz d) (d_ny d)
    (fun u v => sum_list (map (fun kr => if Reqb (read out (snd kr) "frame") (INR f)
        then thickness_share d out (snd kr) (vol (fst kr)) (B (fst kr)) (T (fst kr)) u v else 0) (numbered (pd_peaks out))))
    (Z.of_nat i) (Z.of_nat j)).
Proof. exact pC79_thickness_profile. Qed.
Print Assumptions C79_thickness_profile.

(** Without blur (cap 0 on the kernel size) the picture is the thickness picture itself. *)
Theorem C79_unblurred : forall e d pd frames ml mi im out f vol B T, fresh pd -> built d -> 0 < d_zmax d -> 0 < d_ymax d ->
  non_collinear (d_c0 d) (d_c1 d) (d_c2 d) -> d_sigma d <> 0 -> d_max_radius d = 0%Z ->
  render e d pd frames "macro" ml mi = Ok (im, out) ->
  (exists r, In r (pd_peaks out) /\ read out r "frame" = INR f) ->
  (forall k r, nth_error (pd_peaks out) k = Some r -> read out r "frame" = INR f -> profiled e d out r (vol k) (B k) (T k)) ->
  forall i j, (i < d_nz d)%nat -> (j < d_ny d)%nat ->
    f_at im f i j = Fin (sum_list (map (fun kr => if Reqb (read out (snd kr) "frame") (INR f)
        then thickness_share d out (snd kr) (vol (fst kr)) (B (fst kr)) (T (fst kr)) (Z.of_nat i) (Z.of_nat j) else 0) (numbered (pd_peaks out)))).
Proof. exact pC79_unblurred. Qed.
Print Assumptions C79_unblurred.

(** A lit part of which only a part projects on the detector contributes its whole lit
    volume to the pixels that remain: nothing is lost with the part beside the detector. *)
Theorem C73_full_weight : forall e d pd frames ml mi im out f vol, fresh pd -> built d -> 0 < d_zmax d -> 0 < d_ymax d ->
  d_sigma d <> 0 -> d_max_radius d = 0%Z ->
  render e d pd frames "macro" ml mi = Ok (im, out) ->
  (exists r, In r (pd_peaks out) /\ read out r "frame" = INR f) ->
  (forall k r, nth_error (pd_peaks out) k = Some r -> read out r "frame" = INR f ->
     exists hl r0 r1 c0 c1, lit_part e out r hl /\ h_volume hl = vol k /\ footprint e d out r hl r0 r1 c0 c1 /\
       (r0 < r1)%Z /\ (c0 < c1)%Z /\
       (((r1 - r0) * (c1 - c0))%Z = 1%Z \/ some_ray_hits e d out k r hl r0 r1 c0 c1)) ->
  frame_total im f = Fin (sum_list (map (fun kr =>
      if Reqb (read out (snd kr) "frame") (INR f) then read out (snd kr) "intensity_factors" * vol (fst kr) * (d_pz d * d_py d) else 0)
    (numbered (pd_peaks out)))).
Proof. exact pC73_full_weight. Qed.
Print Assumptions C73_full_weight.

