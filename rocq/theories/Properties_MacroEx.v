(** Generated by tools/gen_properties.py from PMacroEx.v: the property theorems,
    verbatim, each closed by [exact]. Contains nothing else. *)
From Verif Require Import Vec Spec MMotion MLaue MMesh MStrain MBeam SBeam MPolycrystal SPolycrystal MDetector SDetector MClip SClip.
From Verif Require Import MRender SRender SMacro PLaue PBeam PScattering PPolycrystal3 PDetector PDetector2 PDetector3 PDetector4 PClip PRender PRender2 PRender2b PRenderEx PRender3 PKernel2 PKernel3 PMacro.
From Verif Require Import PMacroEx.
Open Scope R_scope.

(** Two methods, one peak, one element of volume 2 well inside a pixel of size 8: the
    micro image holds at most intensity times volume, the macro image 64 times that. *)
Theorem C47_same_total_refuted : exists d pd vs eqs, built d /\ fresh pd /\ volumes_ok pd /\
  forall e, re_hull e vs WholeBody = Ok (Hull vs eqs 2) ->
  exists im im' out r, render e d pd 1 "micro" None 1 = Ok (im, out) /\ render e d pd 1 "macro" None 1 = Ok (im', out) /\
    pd_peaks out = [r] /\ read out r "volumes" = 2 /\
    (exists t, frame_total im 0 = Fin t /\ 0 <= t <= read out r "intensity_factors" * 2) /\
    frame_total im' 0 = Fin (64 * (read out r "intensity_factors" * 2)) /\ 0 < read out r "intensity_factors".
Proof. exact pC47_same_total_refuted. Qed.
Print Assumptions C47_same_total_refuted.

(** A real element and a real rendering in which every ray misses. *)
Example C47_sliver_nonvacuous : exists d pd, built d /\ fresh pd /\ 0 < d_zmax d /\ 0 < d_ymax d /\ (0 <= d_max_radius d)%Z /\
  forall e, re_hull e [sl_A; sl_B; sl_C; sl_D] WholeBody = Ok sl_hull ->
  exists im out r, render e d pd 1 "macro" None 1 = Ok (im, out) /\ pd_peaks out = [r] /\ read out r "frame" = INR 0 /\
    lit_part e out r sl_hull /\ footprint e d out r sl_hull 0 5 1 5 /\ ((5 - 0) * (5 - 1))%Z <> 1%Z /\
    ~ some_ray_hits e d out 0 r sl_hull 0 5 1 5 /\ f_at im 0 2 2 = NaN.
Proof. exact xC47_sliver. Qed.

