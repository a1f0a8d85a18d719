(** * Specification vocabulary for volume-projection ('macro') rendering. *)
From Verif Require Import Vec Spec MMotion MLaue MMesh MStrain MBeam MPolycrystal SPolycrystal MDetector SDetector MClip MRender SRender.
Open Scope R_scope.

(** [vs] are the corners of the row's element moved to the row's diffraction time. *)
Definition element_corners (pd : peaks_dict) (r : list num) (vs : list vec) : Prop :=
  exists el t, nth_error (me_enod (pd_mesh pd)) (Z.to_nat (ztrunc (read pd r "grain_index"))) = Some el /\
    gather_tet (me_coord (pd_mesh pd)) el = Ok t /\
    vs = map (move_at (pd_motion pd) (read pd r "diffraction_times")) (tet_list t).
(** Direction of the scattered ray of a row. *)
Definition kout_of (pd : peaks_dict) (r : list num) : vec :=
  V3 (read pd r "K_out_x") (read pd r "K_out_y") (read pd r "K_out_z").
Definition ray_dir (pd : peaks_dict) (r : list num) : vec := vdiv (kout_of pd r) (norm (kout_of pd r)).
(** [hl] is the part of the row's element inside the beam. *)
Definition lit_part (e : render_env) (pd : peaks_dict) (r : list num) (hl : hull) : Prop :=
  exists vs it, element_corners pd r vs /\
    beam_intersect (re_qhull e) (re_lp e) (re_lsq e) (b_halfspaces (pd_beam pd)) vs = Ok it /\
    it <> NoIntersection /\ re_hull e vs it = Ok hl.
(** Pixel rows r0 .. r1-1 and columns c0 .. c1-1 are the detector region assigned to the lit part. *)
Definition footprint (e : render_env) (d : detector) (pd : peaks_dict) (r : list num) (hl : hull) (r0 r1 c0 c1 : Z) : Prop :=
  projected_box (re_z e) d (h_corners hl) (kout_of pd r) = Some (r0, r1, c0, c1).
Definition in_box (r0 r1 c0 c1 i j : Z) : Prop := (r0 <= i < r1)%Z /\ (c0 <= j < c1)%Z.
(** The rays used to measure the thickness of the lit part: none for a single pixel,
    random points for at most 4 pixels, the pixel positions otherwise. *)
Definition ray_points (e : render_env) (d : detector) (k : nat) (hl : hull) (r0 r1 c0 c1 : Z) (p : vec) : Prop :=
  let n := ((r1 - r0) * (c1 - c0))%Z in
  if (n <=? 4)%Z then In p (re_sample e k hl (7 * Z.to_nat n))
  else exists i j, in_box r0 r1 c0 c1 (Z.of_nat i) (Z.of_nat j) /\ pixel_coordinate d i j = nfin p.
(** Some ray crosses the lit part over more than the 1e-12 tolerance. *)
Definition some_ray_hits (e : render_env) (d : detector) (pd : peaks_dict) (k : nat) (r : list num) (hl : hull) (r0 r1 c0 c1 : Z) : Prop :=
  exists p, ray_points e d k hl r0 r1 c0 c1 p /\ 0 < clip_length p (ray_dir pd r) (hull_planes (h_eqs hl)).
(** The footprint keeps the distance m from the border of an nz x ny image. *)
Definition away_from_border (m : Z) (d : detector) (r0 r1 c0 c1 : Z) : Prop :=
  (m <= r0 /\ r0 < r1 /\ r1 + m <= Z.of_nat (d_nz d) /\ m <= c0 /\ c0 < c1 /\ c1 + m <= Z.of_nat (d_ny d))%Z.
(** Rows with their positions. *)
Definition numbered {A} (l : list A) : list (nat * A) := combine (seq 0 (List.length l)) l.
