(** Generated by tools/gen_properties.py from PProfileEx.v: the property theorems,
    verbatim, each closed by [exact]. Contains nothing else. *)
From Verif Require Import Vec Spec MMotion MLaue MMesh MStrain MBeam SBeam MPolycrystal SPolycrystal MDetector SDetector MClip SClip.
From Verif Require Import MRender SRender SMacro SProfile PLaue PBeam PScattering PPolycrystal3 PDetector PDetector2 PDetector3 PDetector4 PClip PRender PRender2 PRender2b PRenderEx PRender3 PKernel2 PKernel3 PMacro PMacroEx PProfile.
From Verif Require Import PProfileEx.
Open Scope R_scope.

Example C79_profile_nonvacuous : exists d pd, built d /\ fresh pd /\ 0 < d_zmax d /\ 0 < d_ymax d /\ non_collinear (d_c0 d) (d_c1 d) (d_c2 d) /\ d_sigma d <> 0 /\ d_max_radius d = 0%Z /\
  forall e, re_hull e (py_corners 0) WholeBody = Ok (py_hull 0) ->
  exists im out r, render e d pd 1 "macro" None 1 = Ok (im, out) /\ pd_peaks out = [r] /\ read out r "frame" = INR 0 /\
    profiled e d out r 18 py_box0 (py_T 0) /\ f_at im 0 4 4 = Fin (18 * ((8/3) / box_sum py_box0 (py_T 0))).
Proof. exact xC79_profile. Qed.

(** Half of the tetrahedron misses the detector, yet the frame holds intensity times the whole
    lit volume times the pixel area. *)
Theorem C73_visible_share_refuted : exists d pd, built d /\ fresh pd /\ d_sigma d <> 0 /\ d_max_radius d = 0%Z /\
  forall e, re_hull e (py_corners (-3)) WholeBody = Ok (py_hull (-3)) ->
  exists im out r, render e d pd 1 "macro" None 1 = Ok (im, out) /\ pd_peaks out = [r] /\ element_corners out r (py_corners (-3)) /\
    frame_total im 0 = Fin (read out r "intensity_factors" * 18 * (d_pz d * d_py d)) /\ read out r "intensity_factors" = 1 /\
    (exists c, In c (py_corners (-3)) /\ (forall p, ~ hits (d_c0 d) (d_c1 d) (d_c2 d) c (kout_of out r) p)) /\
    (exists c p, In c (py_corners (-3)) /\ hits (d_c0 d) (d_c1 d) (d_c2 d) c (kout_of out r) p).
Proof. exact pC73_visible_share_refuted. Qed.
Print Assumptions C73_visible_share_refuted.

