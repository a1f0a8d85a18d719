(** Generated by tools/gen_properties.py from PMacro.v: the property theorems,
    verbatim, each closed by [exact]. Contains nothing else. *)
From Verif Require Import Vec Spec MMotion MLaue MMesh MStrain MBeam MPolycrystal SPolycrystal MDetector SDetector MClip.
From Verif Require Import MRender SRender SMacro PLaue PBeam PScattering PPolycrystal3 PDetector PDetector2 PDetector3 PDetector4 PClip PRender PRender2 PRenderEx PRender3 PKernel2 PKernel3.
From Verif Require Import PMacro.
Open Scope R_scope.

(** Total of a macro frame whose peaks are all lit, cross at least one ray and keep
    away from the border: the intensity factor times the lit volume of every peak,
    times an additional factor, the area of one pixel. *)
Theorem C47_macro_frame_total : forall e d pd frames ml mi im out f vol, fresh pd -> built d -> 0 < d_zmax d -> 0 < d_ymax d ->
  d_sigma d <> 0 -> (0 <= d_max_radius d)%Z ->
  render e d pd frames "macro" ml mi = Ok (im, out) ->
  (exists r, In r (pd_peaks out) /\ read out r "frame" = INR f) ->
  (forall k r, nth_error (pd_peaks out) k = Some r -> read out r "frame" = INR f ->
     exists hl r0 r1 c0 c1, lit_part e out r hl /\ h_volume hl = vol k /\ footprint e d out r hl r0 r1 c0 c1 /\
       away_from_border (psf_radius d) d r0 r1 c0 c1 /\
       (((r1 - r0) * (c1 - c0))%Z = 1%Z \/ some_ray_hits e d out k r hl r0 r1 c0 c1)) ->
  frame_total im f = Fin (sum_list (map (fun kr =>
      if Reqb (read out (snd kr) "frame") (INR f) then read out (snd kr) "intensity_factors" * vol (fst kr) * (d_pz d * d_py d) else 0)
    (numbered (pd_peaks out)))).
Proof. exact pC47_macro_frame_total. Qed.
Print Assumptions C47_macro_frame_total.

(** When no ray crosses the lit part (a sliver between the sampled rays) the
    normalisation is 0/0 and the frame is NaN on the whole footprint. *)
Theorem C47_missed_sliver_nan : forall e d pd frames ml mi im out k r f hl r0 r1 c0 c1 i j, fresh pd -> built d -> 0 < d_zmax d -> 0 < d_ymax d ->
  (0 <= d_max_radius d)%Z ->
  render e d pd frames "macro" ml mi = Ok (im, out) ->
  nth_error (pd_peaks out) k = Some r -> read out r "frame" = INR f ->
  lit_part e out r hl -> footprint e d out r hl r0 r1 c0 c1 -> ((r1 - r0) * (c1 - c0))%Z <> 1%Z ->
  ~ some_ray_hits e d out k r hl r0 r1 c0 c1 -> in_box r0 r1 c0 c1 (Z.of_nat i) (Z.of_nat j) ->
  f_at im f i j = NaN.
Proof. exact pC47_missed_sliver_nan. Qed.
Print Assumptions C47_missed_sliver_nan.

