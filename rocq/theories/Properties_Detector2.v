(** Generated by tools/gen_properties.py from PDetector2.v: the property theorems,
    verbatim, each closed by [exact]. Contains nothing else. *)
From Verif Require Import Vec Spec MMotion PMotion MLaue PLaue MMesh SMesh PMesh MScattering SScattering PScattering.
From Verif Require Import MStrain SStrain PStrain MBeam SBeam PBeam MPolycrystal SPolycrystal PPolycrystal.
From Verif Require Import MDetector SDetector PDetector.
From Verif Require Import PDetector2.
Open Scope R_scope.

(** zd and yd are finite and inside of the closed rectangle; NaN and infinities never are. *)
Theorem C29_contains_iff : forall d zd yd, det_contains d zd yd = true <->
  exists a b, zd = Fin a /\ yd = Fin b /\ 0 <= a <= d_zmax d /\ 0 <= b <= d_ymax d.
Proof. exact pC29_contains_iff. Qed.
Print Assumptions C29_contains_iff.

(** The projected table holds, in the original order, exactly the visible rows of
    the input (one output row per visible input row), each with five columns appended. *)
Theorem C32_rows_are_the_visible_ones : forall z d pd frames, built d ->
  rectangular (d_c0 d) (d_c1 d) (d_c2 d) -> fresh pd ->
  exists out keep, project z d pd frames = Ok out /\
    map (firstn 25) (pd_peaks out) = filter keep (pd_peaks pd) /\
    (forall r, In r (pd_peaks pd) -> (keep r = true <-> visible d pd r)) /\
    Forall (fun r => List.length r = 30%nat) (pd_peaks out).
Proof. exact pC32_rows_are_the_visible_ones. Qed.
Print Assumptions C32_rows_are_the_visible_ones.

(** Every recorded row: its ray, followed forward, crosses the detector rectangle
    at the point with the recorded coordinates. *)
Theorem C29_recorded_rows_hit : forall z d pd frames out r, built d ->
  rectangular (d_c0 d) (d_c1 d) (d_c2 d) -> fresh pd -> project z d pd frames = Ok out ->
  In r (pd_peaks out) -> exists zd yd,
    has out r "zd" zd /\ has out r "yd" yd /\ 0 <= zd <= dist (d_c2 d) (d_c0 d) /\ 0 <= yd <= dist (d_c1 d) (d_c0 d) /\
    peak_hits d out r (surface_point (d_c0 d) (d_c1 d) (d_c2 d) zd yd).
Proof. exact pC29_recorded_rows_hit. Qed.
Print Assumptions C29_recorded_rows_hit.

Theorem C29_missed_never_recorded : forall z d pd frames out r, built d ->
  rectangular (d_c0 d) (d_c1 d) (d_c2 d) -> fresh pd -> project z d pd frames = Ok out ->
  In r (pd_peaks pd) -> (forall p, ~ peak_hits d pd r p) -> ~ In r (map (firstn 25) (pd_peaks out)).
Proof. exact pC29_missed_never_recorded. Qed.
Print Assumptions C29_missed_never_recorded.

(** Intensity: the product of the enabled factors, finite and positive. *)
Theorem C32_intensity_product : forall z d pd frames out r, fresh pd -> project z d pd frames = Ok out ->
  In r (pd_peaks out) -> exists i, has out r "intensity_factors" i /\ 0 < i /\ intensity_is d out r i.
Proof. exact pC32_intensity_product. Qed.
Print Assumptions C32_intensity_product.

(** Column names are extended and everything else in the dictionary is passed on. *)
Theorem C32_dictionary_extended : forall z d pd frames out, project z d pd frames = Ok out ->
  pd_columns out = pd_columns pd ++ ["zd"; "yd"; "incident_angle"; "frame"; "intensity_factors"]%string /\
  pd_incident out = pd_incident pd /\ pd_wavelength out = pd_wavelength pd /\ pd_axis out = pd_axis pd /\
  pd_mesh out = pd_mesh pd /\ pd_motion out = pd_motion pd /\ pd_beam out = pd_beam pd.
Proof. exact pC32_dictionary_extended. Qed.
Print Assumptions C32_dictionary_extended.

(** The sign of zero denominators is never observable in a projected table. *)
Theorem C32_no_signed_zero : forall z d pd frames, built d ->
  rectangular (d_c0 d) (d_c1 d) (d_c2 d) -> fresh pd -> project z d pd frames = project false d pd frames.
Proof. exact pC32_no_signed_zero. Qed.
Print Assumptions C32_no_signed_zero.

(** C32. Projecting such a table never fails, whatever the detector (also for skew or
    collinear corners) and the number of frames. *)
Theorem C32_never_fails : forall z d pd frames, fresh pd -> exists out, project z d pd frames = Ok out.
Proof. exact pC32_never_fails. Qed.
Print Assumptions C32_never_fails.

(** Tables diffract returns have the layout assumed above. *)
Theorem C32_diffract_tables_fresh : forall z x p b m lo hi det pd,
  fst (diffract z x p b m lo hi det) = Ok pd -> fresh pd.
Proof. exact pC32_diffract_tables_fresh. Qed.
Print Assumptions C32_diffract_tables_fresh.

