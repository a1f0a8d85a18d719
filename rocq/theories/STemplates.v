(** * Specification vocabulary for the templates. *)
From Verif Require Import Vec Spec MMotion MMesh MStrain MBeam MPolycrystal MDetector MTemplates.
From Coq Require Import String.
Open Scope R_scope.

(** ** s3dxrd *)
(** The twelve quantities of the documented parameter dictionary. *)
Record setup := Setup {
  se_distance : R; se_nz : Z; se_ny : Z; se_cz : R; se_cy : R; se_pz : R; se_py : R;
  se_wavelength : R; se_lz : R; se_ly : R; se_step : R; se_axis : vec }.
Definition given (p : params) (s : setup) : Prop :=
  p "detector_distance"%string = Some (VNum (se_distance s)) /\
  p "number_of_detector_pixels_z"%string = Some (VNum (IZR (se_nz s))) /\
  p "number_of_detector_pixels_y"%string = Some (VNum (IZR (se_ny s))) /\
  p "detector_center_pixel_z"%string = Some (VNum (se_cz s)) /\
  p "detector_center_pixel_y"%string = Some (VNum (se_cy s)) /\
  p "pixel_side_length_z"%string = Some (VNum (se_pz s)) /\
  p "pixel_side_length_y"%string = Some (VNum (se_py s)) /\
  p "wavelength"%string = Some (VNum (se_wavelength s)) /\
  p "beam_side_length_z"%string = Some (VNum (se_lz s)) /\
  p "beam_side_length_y"%string = Some (VNum (se_ly s)) /\
  p "rotation_step"%string = Some (VNum (se_step s)) /\
  p "rotation_axis"%string = Some (VVec (se_axis s)).
Definition documented_keys : list string :=
  ["detector_distance"; "number_of_detector_pixels_z"; "number_of_detector_pixels_y"; "detector_center_pixel_z";
   "detector_center_pixel_y"; "pixel_side_length_z"; "pixel_side_length_y"; "wavelength"; "beam_side_length_z";
   "beam_side_length_y"; "rotation_step"; "rotation_axis"]%string.
Definition sane (s : setup) : Prop := (0 < se_nz s)%Z /\ (0 < se_ny s)%Z /\ 0 < se_pz s /\ 0 < se_py s.

(** ** Orientation sampling *)
Definition unit_quat (q : quat) : Prop := qx q * qx q + qy q * qy q + qz q * qz q + qw q * qw q = 1.
(** Number of steps of pi/2: the whole part of pi / separation. *)
Definition odf_count (separation : R) : nat := Z.to_nat (Int_part (PI / separation)).
Definition odf_bin_step (separation : R) : R := PI / 2 / INR (odf_count separation).
(** Centre of bin (i, j, k). *)
Definition bin_centre (d : R) (i j k : nat) : R * R * R :=
  ((INR i + 1/2) * d + odf_eps, (INR j + 1/2) * d + odf_eps, (INR k + 1/2) * d + odf_eps).
(** Within half a step of the centre, in all three angles. *)
Definition near_bin (d : R) (g : R * R * R) (a1 a2 a3 : R) : Prop :=
  Rabs (a1 - fst (fst g)) <= d / 2 /\ Rabs (a2 - snd (fst g)) <= d / 2 /\ Rabs (a3 - snd g) <= d / 2.
(** Total weight the sampler gives an orientation density at a point. *)
Definition odf_total (d : R) (odf : vec -> quat -> R) (x : vec) : R :=
  sum_list (map (fun g => odf_volume d g * odf x (grid_quat g)) (odf_grid d)).
(** What numpy.random promises: a drawn index has positive probability, uniform numbers lie in
    [0, 1). *)
Definition fair (gen : generator) : Prop :=
  (forall i p, (forall v, In v p -> 0 <= v) -> sum_list p = 1 -> 0 < nth (choice gen i p) p 0) /\
  (forall i j, 0 <= rand gen i j < 1).

(** ** Surfaces made of triangles *)
(** An edge without direction, smaller index first. *)
Definition edge_of (a b : nat) : nat * nat := (Nat.min a b, Nat.max a b).
Definition facet_edges (f : nat * nat * nat) : list (nat * nat) :=
  let '(a, b, c) := f in [edge_of a b; edge_of b c; edge_of c a].
(** Angle of the rotation that takes orientation A to orientation B. *)
Definition mtrace (A : mat) : R := vx (r1 A) + vy (r2 A) + vz (r3 A).
Definition misorientation (A B : mat) : R := acos ((mtrace (mm (mT A) B) - 1) / 2).
(** Direction a triangle faces by the right-hand rule of its corner order, and whether that is
    away from or towards the origin. *)
Definition facet_normal (pts : list vec) (f : nat * nat * nat) : vec :=
  let '(a, b, c) := f in let p i := nth i pts vzero in cross (vsub (p b) (p a)) (vsub (p c) (p a)).
Definition faces_out (pts : list vec) (f : nat * nat * nat) : Prop := 0 < dot (facet_normal pts f) (nth (fst (fst f)) pts vzero).
Definition faces_in (pts : list vec) (f : nat * nat * nat) : Prop := dot (facet_normal pts f) (nth (fst (fst f)) pts vzero) < 0.
