(** Generated by tools/gen_properties.py from PRender2.v: the property theorems,
    verbatim, each closed by [exact]. Contains nothing else. *)
From Verif Require Import Vec Spec MMotion PMotion MLaue PLaue MMesh SMesh PMesh MScattering SScattering PScattering.
From Verif Require Import MStrain SStrain PStrain MBeam SBeam PBeam MPolycrystal SPolycrystal PPolycrystal.
From Verif Require Import MDetector SDetector PDetector PDetector2 PDetector3 PDetector4 PPolycrystal3 MClip MRender SRender PRender.
From Coq Require Import FunctionalExtensionality Permutation.
From Verif Require Import PRender2.
Open Scope R_scope.

(** Every pixel of the rendered image is the sum of the spots of the peaks recorded
    for that frame: a peak contributes to its own frame only. *)
Theorem C39_pixel_is_sum_of_spots : forall e d pd frames ml mi im out f i j, fresh pd -> volumes_ok pd ->
  render e d pd frames "micro" ml mi = Ok (im, out) -> in_image im f i j ->
  f_at im f i j = Fin (sum_list (map (fun r => micro_spot d out r (Z.of_nat i) (Z.of_nat j)) (rows_in_frame out f))).
Proof. exact pC39_pixel_is_sum_of_spots. Qed.
Print Assumptions C39_pixel_is_sum_of_spots.

(** A spot is non-negative, vanishes further than the kernel radius + 1/2 pixel away
    from the peak position, and its pixels add up to at most the peak's strength. *)
Theorem C39_spot_bounds : forall d pd r, 0 <= strength pd r ->
  (forall i j, 0 <= micro_spot d pd r i j) /\
  (forall i j, micro_spot d pd r i j <> 0 ->
     Rabs (IZR i - read pd r "zd" / d_pz d) <= IZR (micro_radius d) + 1/2 /\
     Rabs (IZR j - read pd r "yd" / d_py d) <= IZR (micro_radius d) + 1/2) /\
  (forall h w, pixel_sum h w (micro_spot d pd r) <= strength pd r).
Proof. exact pC39_spot_bounds. Qed.
Print Assumptions C39_spot_bounds.

(** The peaks of a rendered table have non-negative strength. *)
Theorem C39_strength_nonneg : forall e d pd frames ml mi im out r, fresh pd -> volumes_ok pd ->
  render e d pd frames "micro" ml mi = Ok (im, out) -> In r (pd_peaks out) -> 0 <= strength out r.
Proof. exact pC39_strength_nonneg. Qed.
Print Assumptions C39_strength_nonneg.

(** The total of a rendered frame is at most the summed strength of its peaks. *)
Theorem C39_frame_total_bounded : forall e d pd frames ml mi im out f, fresh pd -> volumes_ok pd ->
  render e d pd frames "micro" ml mi = Ok (im, out) -> (f < f_n im)%nat ->
  exists t, frame_total im f = Fin t /\ 0 <= t <= sum_list (map (strength out) (rows_in_frame out f)).
Proof. exact pC39_frame_total_bounded. Qed.
Print Assumptions C39_frame_total_bounded.

(** Rendering the union of two peak lists gives the sum of the two images. *)
Theorem C39_superposition : forall e d pd rowsA rowsB frames ml mi im imA imB out outA outB, fresh (with_peaks pd (rowsA ++ rowsB)) ->
  render e d (with_peaks pd (rowsA ++ rowsB)) frames "micro" ml mi = Ok (im, out) ->
  render e d (with_peaks pd rowsA) frames "micro" ml mi = Ok (imA, outA) ->
  render e d (with_peaks pd rowsB) frames "micro" ml mi = Ok (imB, outB) ->
  same_image im (add3 imA imB).
Proof. exact pC39_superposition. Qed.
Print Assumptions C39_superposition.

(** The order of the peaks is irrelevant. *)
Theorem C39_order_irrelevant : forall e d pd rowsA rowsB frames ml mi imA imB outA outB, Permutation rowsA rowsB ->
  fresh (with_peaks pd rowsA) ->
  render e d (with_peaks pd rowsA) frames "micro" ml mi = Ok (imA, outA) ->
  render e d (with_peaks pd rowsB) frames "micro" ml mi = Ok (imB, outB) ->
  same_image imA imB.
Proof. exact pC39_order_irrelevant. Qed.
Print Assumptions C39_order_irrelevant.

(** Every table produced by diffract can be rendered. *)
Theorem C39_micro_never_fails : forall e d pd frames ml mi, fresh pd ->
  exists im out, render e d pd frames "micro" ml mi = Ok (im, out).
Proof. exact pC39_micro_never_fails. Qed.
Print Assumptions C39_micro_never_fails.

(** When every peak's strength is at most 1e-6, nothing is rendered at all. *)
Theorem C40_weak_peaks_vanish : forall e d pd frames ml mi im out, fresh pd -> volumes_ok pd ->
  render e d pd frames "micro" ml mi = Ok (im, out) ->
  (forall r, In r (pd_peaks out) -> strength out r <= / 10^6) -> blank im.
Proof. exact pC40_weak_peaks_vanish. Qed.
Print Assumptions C40_weak_peaks_vanish.

