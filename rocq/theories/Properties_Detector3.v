(** Generated by tools/gen_properties.py from PDetector3.v: the property theorems,
    verbatim, each closed by [exact]. Contains nothing else. *)
From Verif Require Import Vec Spec MMotion PMotion MLaue PLaue MMesh SMesh PMesh MScattering SScattering PScattering.
From Verif Require Import MStrain SStrain PStrain MBeam SBeam PBeam MPolycrystal SPolycrystal PPolycrystal.
From Verif Require Import MDetector SDetector PDetector PDetector2 MFloat.
From Verif Require Import PPolycrystal3.
From Verif Require Import PDetector3.
Open Scope R_scope.

(** Every time in [0,1] is put into its time bin, for every number of frames. *)
Theorem C31_frame_is_time_bin : forall n t, (1 <= n)%Z -> 0 <= t <= 1 -> in_bin n t (frame_of n (Fin t)).
Proof. exact pC31_frame_is_time_bin. Qed.
Print Assumptions C31_frame_is_time_bin.

(** A time lies in at most one bin. *)
Theorem C31_bin_unique : forall n t f f', in_bin n t f -> in_bin n t f' -> f = f'.
Proof. exact pC31_bin_unique. Qed.
Print Assumptions C31_bin_unique.

Theorem C31_monotone : forall n t t', (1 <= n)%Z -> 0 <= t -> t <= t' -> t' <= 1 ->
  (frame_of n (Fin t) <= frame_of n (Fin t'))%Z.
Proof. exact pC31_monotone. Qed.
Print Assumptions C31_monotone.

(** In a projected table: the frame column holds the bin of the recorded time;
    fewer than one requested frame counts as one. *)
Theorem C31_recorded_frame : forall z d pd frames out r t, fresh pd -> project z d pd frames = Ok out ->
  In r (pd_peaks out) -> has out r "diffraction_times" t -> 0 <= t <= 1 ->
  exists f, has out r "frame" (IZR f) /\ in_bin (Z.max 1 frames) t f.
Proof. exact pC31_recorded_frame. Qed.
Print Assumptions C31_recorded_frame.

Example C31_bins_nonvacuous : in_bin 4 (1/2) 1 /\ in_bin 4 (51/100) 2 /\ in_bin 4 1 3 /\ in_bin 4 0 0.
Proof. exact xC31_bins. Qed.

(** The pixel array has ceil(length / pixel size) points along each edge. *)
Theorem C30_grid_shape : forall d, built d -> 0 < d_zmax d -> 0 < d_ymax d ->
  0 < d_pz d /\ 0 < d_py d /\
  List.length (pixel_coordinates d) = d_nz d /\ Forall (fun row => List.length row = d_ny d) (pixel_coordinates d) /\
  INR (d_nz d) - 1 < d_zmax d / d_pz d <= INR (d_nz d) /\
  INR (d_ny d) - 1 < d_ymax d / d_py d <= INR (d_ny d).
Proof. exact pC30_grid_shape. Qed.
Print Assumptions C30_grid_shape.

(** The point in row i, column j is i pixels along the z edge and j along the y
    edge from corner 0 (a pixel's corner, not its centre). *)
Theorem C30_pixel_position : forall d i j, built d -> non_collinear (d_c0 d) (d_c1 d) (d_c2 d) ->
  (i < d_nz d)%nat -> (j < d_ny d)%nat ->
  exists row, nth_error (pixel_coordinates d) i = Some row /\
    nth_error row j = Some (nfin (surface_point (d_c0 d) (d_c1 d) (d_c2 d) (INR i * d_pz d) (INR j * d_py d))).
Proof. exact pC30_pixel_position. Qed.
Print Assumptions C30_pixel_position.

(** Exact arithmetic: asking for n_z x n_y pixels gives n_z x n_y pixels. *)
Theorem C30_requested_pixels : forall c0 c1 c2 n nz ny sg th mr ul up us d,
  make_detector c0 c1 c2 (Some n) None sg th mr ul up us = Ok d -> asks n nz ny -> (0 < nz)%Z -> (0 < ny)%Z ->
  Z.of_nat (d_nz d) = nz /\ Z.of_nat (d_ny d) = ny /\
  d_pz d = dist c2 c0 / IZR nz /\ d_py d = dist c1 c0 / IZR ny.
Proof. exact pC30_requested_pixels. Qed.
Print Assumptions C30_requested_pixels.

(** IEEE double precision: 49 requested rows over 512 length units become 50. *)
Theorem C30_requested_pixels_rounding_refuted : f64_rows 512 49 = 50%Z.
Proof. exact pC30_requested_pixels_rounding_refuted. Qed.
Print Assumptions C30_requested_pixels_rounding_refuted.

(** Argument errors: exactly one of n_pixels and pixel_size must be given. *)
Theorem C30_one_of_two_required : forall c0 c1 c2 np ps sg th mr ul up us,
  (np = None <-> ps = None) ->
  make_detector c0 c1 c2 np ps sg th mr ul up us = Err ValueError.
Proof. exact pC30_one_of_two_required. Qed.
Print Assumptions C30_one_of_two_required.

(** Every other refusal (sizes, counts or radius cap that torch.arange cannot take) is a
    RuntimeError; a count of zero is outside of the model. *)
Theorem C30_other_failures_kind : forall c0 c1 c2 np ps sg th mr ul up us e,
  ~ (np = None <-> ps = None) -> (forall n nz ny, np = Some n -> asks n nz ny -> nz <> 0%Z /\ ny <> 0%Z) ->
  make_detector c0 c1 c2 np ps sg th mr ul up us = Err e -> e = RuntimeError.
Proof. exact pC30_other_failures_kind. Qed.
Print Assumptions C30_other_failures_kind.

(** Zero or negative sizes and negative counts never make a detector. *)
Theorem C30_sizes_positive : forall c0 c1 c2 ps pz py sg th mr ul up us d,
  make_detector c0 c1 c2 None (Some ps) sg th mr ul up us = Ok d -> asks ps pz py -> non_collinear c0 c1 c2 ->
  0 < pz /\ 0 < py /\ d_pz d = pz /\ d_py d = py.
Proof. exact pC30_sizes_positive. Qed.
Print Assumptions C30_sizes_positive.

(** With distinct corners and given pixel sizes the constructor succeeds exactly when both sizes are
    positive and the radius cap of the point spread kernel is not negative. *)
Theorem C30_sizes_accepted_iff : forall c0 c1 c2 ps pz py sg th mr ul up us, c1 <> c0 -> c2 <> c0 -> asks ps pz py ->
  (exists d, make_detector c0 c1 c2 None (Some ps) sg th mr ul up us = Ok d) <-> 0 < pz /\ 0 < py /\ (0 <= mr)%Z.
Proof. exact pC30_sizes_accepted_iff. Qed.
Print Assumptions C30_sizes_accepted_iff.

(** The same for pixel counts: exactly the positive ones are accepted (0 is outside of the model). *)
Theorem C30_counts_accepted_iff : forall c0 c1 c2 n nz ny sg th mr ul up us, c1 <> c0 -> c2 <> c0 -> asks n nz ny -> nz <> 0%Z -> ny <> 0%Z ->
  (exists d, make_detector c0 c1 c2 (Some n) None sg th mr ul up us = Ok d) <-> (0 < nz)%Z /\ (0 < ny)%Z /\ (0 <= mr)%Z.
Proof. exact pC30_counts_accepted_iff. Qed.
Print Assumptions C30_counts_accepted_iff.

Example C30_refused_nonvacuous : make_detector vzero (V3 0 1 0) (V3 0 0 1) None (Some (Single 1)) 1 0 (-1) true true true = Err RuntimeError.
Proof. exact xC30_refused. Qed.

Example C30_grid_nonvacuous : exists d, built d /\ non_collinear (d_c0 d) (d_c1 d) (d_c2 d) /\ 0 < d_zmax d /\ 0 < d_ymax d /\
  (3 < d_nz d)%nat /\ (3 < d_ny d)%nat.
Proof. exact xC30_grid. Qed.

(** A peak along the beam hits the centre of the square detector and is visible. *)
Example C32_visible_nonvacuous : exists d pd r, built d /\ rectangular (d_c0 d) (d_c1 d) (d_c2 d) /\ fresh pd /\
  In r (pd_peaks pd) /\ visible d pd r.
Proof. exact xC32_visible. Qed.

Example C29_recorded_nonvacuous : exists d pd out r, built d /\ rectangular (d_c0 d) (d_c1 d) (d_c2 d) /\ fresh pd /\
  project false d pd 3 = Ok out /\ In r (pd_peaks out).
Proof. exact xC29_recorded. Qed.

(** Skew corners: the corner of the detector surface itself is hit by a visible
    ray and not recorded. *)
Theorem C29_skew_refuted : exists d pd, built d /\ non_collinear (d_c0 d) (d_c1 d) (d_c2 d) /\ fresh pd /\
  (exists r, In r (pd_peaks pd) /\ visible d pd r) /\
  forall z frames, exists out, project z d pd frames = Ok out /\ pd_peaks out = [].
Proof. exact pC29_skew_refuted. Qed.
Print Assumptions C29_skew_refuted.

(** Projecting an already projected table onto a second detector keeps a row iff
    the first detector's coordinates fit into the second one's rectangle: neither
    the position of the second detector nor the ray matter. *)
Theorem C33_reprojection_uses_stale_coordinates : forall z d1 d2 pd0 n1 n2 pd1 pd2, fresh pd0 ->
  project z d1 pd0 n1 = Ok pd1 -> project z d2 pd1 n2 = Ok pd2 ->
  exists keep, map (firstn 30) (pd_peaks pd2) = filter keep (pd_peaks pd1) /\
    forall r, In r (pd_peaks pd1) -> (keep r = true <->
      exists zd yd, has pd1 r "zd" zd /\ has pd1 r "yd" yd /\ 0 <= zd <= d_zmax d2 /\ 0 <= yd <= d_ymax d2).
Proof. exact pC33_reprojection_uses_stale_coordinates. Qed.
Print Assumptions C33_reprojection_uses_stale_coordinates.

(** Reading any column by name in the re-projected table still gives the values of
    the first projection: the second set of names is shadowed. *)
Theorem C33_names_shadowed : forall z d1 d2 pd0 n1 n2 pd1 pd2 r, fresh pd0 ->
  project z d1 pd0 n1 = Ok pd1 -> project z d2 pd1 n2 = Ok pd2 -> In r (pd_peaks pd2) ->
  forall s, In s ["zd"; "yd"; "incident_angle"; "frame"; "intensity_factors"]%string ->
    field pd2 r s = field pd1 (firstn 30 r) s.
Proof. exact pC33_names_shadowed. Qed.
Print Assumptions C33_names_shadowed.

(** So a detector that no ray reaches records every peak of the first one. *)
Theorem C33_second_detector_refuted : exists d1 d2 pd0 pd1 pd2, built d1 /\ built d2 /\ fresh pd0 /\
  rectangular (d_c0 d2) (d_c1 d2) (d_c2 d2) /\
  project false d1 pd0 1 = Ok pd1 /\ project false d2 pd1 1 = Ok pd2 /\
  (forall r p, In r (pd_peaks pd0) -> ~ peak_hits d2 pd0 r p) /\
  (forall out, project false d2 pd0 1 = Ok out -> pd_peaks out = []) /\ pd_peaks pd2 <> [].
Proof. exact pC33_second_detector_refuted. Qed.
Print Assumptions C33_second_detector_refuted.

