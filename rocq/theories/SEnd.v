(** * Specification vocabulary: a diffraction experiment from sample to image (C84). *)
From Verif Require Import Vec Spec MMotion MLaue MMesh MScattering MStrain MBeam SBeam MPolycrystal SPolycrystal SEvents.
From Verif Require Import MDetector SDetector MRender SRender.
Open Scope R_scope.

(** A spot on the detector: which plane of which element caused it and when, the frame it falls in, where on the
    detector (distances along the two edges), the correction factor and the volume of the element. *)
Record seen := Seen { sn_element : nat; sn_plane : nat; sn_time : R; sn_frame : nat;
                      sn_zd : R; sn_yd : R; sn_intensity : R; sn_volume : R }.

(** |F|^2 of plane number j of the phase of element e; 1 when the phase has no structure factors. *)
Definition squared_factor (p : polycrystal) (e j : nat) (sf : R) : Prop :=
  exists i ph, in_phase p e i /\ nth_error (pc_phases p) i = Some ph /\
    match ph_sf ph with
    | None => sf = 1
    | Some l => exists re im, nth_error l j = Some (re, im) /\ sf = re^2 + im^2
    end.
(** At time t the centre of element e is at s, strictly inside the beam. *)
Definition lit_at (p : polycrystal) (b : beam) (m : motion) (e : nat) (t : R) (s : vec) : Prop :=
  exists c, nth_error (me_espherecentroids (pc_mesh_lab p)) e = Some c /\
    motion_call m (P1 c) (S0 t) = Ok (P1 s) /\ strictly_inside (b_halfspaces b) s.
(** A correction factor that is switched off counts as 1. *)
Definition corrected (enabled : bool) (x : num) (y : R) : Prop := if enabled then x = Fin y else y = 1.

(** The spot [s] belongs to the picture of sample [p] (its phases hold the planes in use) in beam [b] during the
    motion [m] about the axis [a], taken by detector [d] in n frames: the plane meets the Laue condition at that
    time while the element is lit, the scattered ray starting at the element hits the detector at the given
    coordinates, the frame is the one whose time bin holds the time, the enabled corrections multiply to the
    given finite positive number. *)
Definition recorded (z : bool) (p : polycrystal) (b : beam) (a : vec) (m : motion) (d : detector) (n : Z) (s : seen) : Prop :=
  exists G src sf A P L,
    diffracts_at p b a m (sn_element s) (sn_plane s) (sn_time s) G /\
    lit_at p b m (sn_element s) (sn_time s) src /\
    nth_error (pc_volumes p) (sn_element s) = Some (sn_volume s) /\
    squared_factor p (sn_element s) (sn_plane s) sf /\
    hits (d_c0 d) (d_c1 d) (d_c2 d) src (vadd (b_wave_vector b) G)
         (surface_point (d_c0 d) (d_c1 d) (d_c2 d) (sn_zd s) (sn_yd s)) /\
    in_bin n (sn_time s) (Z.of_nat (sn_frame s)) /\
    corrected (d_structure d) (Fin sf) A /\
    corrected (d_polarization d) (polarization (b_polarization b) (vadd (b_wave_vector b) G)) P /\
    corrected (d_lorentz d) (lorentz z (b_wave_vector b) a (vadd (b_wave_vector b) G)) L /\
    sn_intensity s = A * P * L /\ 0 < sn_intensity s.
(** The scattering vector of the spot's reflection only touches the Ewald sphere. *)
Definition grazes (p : polycrystal) (b : beam) (a : vec) (m : motion) (s : seen) : Prop :=
  exists G, diffracts_at p b a m (sn_element s) (sn_plane s) (sn_time s) G /\ grazing (b_wave_vector b) a G.
(** What the spot adds to pixel (i,j) of frame f: a Gaussian of total intensity x volume around the hit. *)
Definition spot_at (d : detector) (f i j : nat) (s : seen) : R :=
  if Nat.eqb (sn_frame s) f
  then gauss_spot (micro_sigma d) (micro_radius d) (sn_zd s / d_pz d) (sn_yd s / d_py d)
         (sn_intensity s * sn_volume s) (Z.of_nat i) (Z.of_nat j)
  else 0.
