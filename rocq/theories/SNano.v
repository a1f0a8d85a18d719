(** * Specification vocabulary for the 'nano' (Airy disc) method. *)
From Verif Require Import Vec Spec MMotion MLaue MMesh MStrain MBeam MPolycrystal SPolycrystal MDetector SDetector MRender SRender.
From Coq Require Import Permutation.
Open Scope R_scope.

(** Radius of the first dark ring of a projected row, in pixels along z, as the code
    computes it: from the Scherrer width, the length of the vector to detector corner 0
    and the cosine of the incidence angle. *)
Definition disc_radius (d : detector) (pd : peaks_dict) (r : list num) : R :=
  read pd r "scherrer_fwhm" * (norm (d_c0 d) / cos (read pd r "incident_angle" * (PI / 180))) / d_pz d * (11861/10000).
(** The row has a finite width and incidence angle, and the ray is not parallel to the detector. *)
Definition proper_disc (pd : peaks_dict) (r : list num) : Prop :=
  (exists x, has pd r "scherrer_fwhm" x) /\ (exists x, has pd r "incident_angle" x) /\
  cos (read pd r "incident_angle" * (PI / 180)) <> 0.
(** A sorting routine returns each position exactly once. *)
Definition permutes (argsort : list num -> list nat) : Prop :=
  forall l, Permutation (argsort l) (seq 0 (List.length l)).
(** ... in descending order of the keys. *)
Definition descending (argsort : list num -> list nat) : Prop :=
  forall (l : list R) i j, (i < j < List.length l)%nat ->
    nth (nth j (argsort (map Fin l)) 0%nat) l 0 <= nth (nth i (argsort (map Fin l)) 0%nat) l 0.
(** The same machine with another amount of free memory (GB). *)
Definition with_memory (free : R) (e : render_env) : render_env :=
  REnv (re_z e) free free (re_j1 e) (re_argsort e) (re_qhull e) (re_lp e) (re_lsq e) (re_hull e) (re_sample e).
(** The row lies so far from the border of the detector that its largest possible kernel
    (radius 128 pixels, or the point spread radius if that is larger), widened by the
    point spread kernel, fits on the detector. *)
Definition deep (d : detector) (pd : peaks_dict) (r : list num) : Prop :=
  let m := IZR (Z.max 128 (psf_radius d) + psf_radius d) in
  m <= read pd r "zd" / d_pz d /\ read pd r "zd" / d_pz d + m + 1 < INR (d_nz d) /\
  m <= read pd r "yd" / d_py d /\ read pd r "yd" / d_py d + m + 1 < INR (d_ny d).
(** Brightness of an Airy pattern relative to its centre, at the given multiple of the radius of the
    first dark ring (3.8317 is the first zero of the Bessel function J1). *)
Definition airy_pattern (j1 : R -> R) (rho : R) : R :=
  if Req_EM_T rho 0 then 1 else (2 * j1 (38317/10000 * rho) / (38317/10000 * rho))^2.
(** Distance of a point from the plane of the detector. *)
Definition plane_distance (d : detector) (o : vec) : R :=
  let n := plane_normal (d_c0 d) (d_c1 d) (d_c2 d) in Rabs (dot (vsub (d_c0 d) o) n) / norm n.
(** Two projected rows put the same strength at the same place of the same frame. *)
Definition same_spot (pd pd' : peaks_dict) (r r' : list num) : Prop :=
  read pd r "zd" = read pd' r' "zd" /\ read pd r "yd" = read pd' r' "yd" /\
  read pd r "frame" = read pd' r' "frame" /\ strength pd r = strength pd' r'.
