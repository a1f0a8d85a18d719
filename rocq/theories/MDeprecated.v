(** * Model of the deprecated helpers of detector.py:1760-1902 and laue.py:188-212.  No proofs in this file. *)
From Verif Require Import Vec MMotion MLaue MMesh MScattering MBeam MClip MDetector.
Open Scope R_scope.

(** detector.py:1766-1803 _ray_detector_intersection. *)
Definition ray_hit (d : detector) (o v : vec) : option nvec :=
  let denom := ndot (nfin v) (d_normal d) in
  if nlt (nabs denom) (Fin (/ 10^10)) then None
  else let t := ndiv false (ndot (nvsub (nfin (d_c0 d)) (nfin o)) (d_normal d)) denom in
       if nlt t (Fin 0) then None else Some (nvadd (nfin o) (nvscale t (nfin v))).
(** detector.py:1805-1847 _world_to_pixel_coords. *)
Definition world_to_pixel (d : detector) (p : nvec) : option (num * num) :=
  let v := nvsub p (nfin (d_c0 d)) in
  let zp := ndiv false (ndot v (d_zdhat d)) (Fin (d_pz d)) in
  let yp := ndiv false (ndot v (d_ydhat d)) (Fin (d_py d)) in
  if nlt zp (Fin 0) || nle (Fin (INR (d_nz d))) zp || nlt yp (Fin 0) || nle (Fin (INR (d_ny d))) yp then None
  else Some (zp, yp).
(** detector.py:1849-1902 _compute_pixel_path_length.  [hull]: scipy's ConvexHull (equations and
    simplices, one equation per simplex); any exception gives 0.0 (1876-1879). *)
Definition pixel_path_length (hull : list vec -> result (list halfspace * list (nat * nat * nat)))
  (p dir : vec) (points : list vec) : R :=
  match hull points with
  | Err _ => 0
  | Ok (eqs, simplices) =>
      clip_length p dir (map (fun es => (nth (fst (fst (snd es))) points vzero, hs_n (fst es))) (combine eqs simplices))
  end.
(** laue.py:188-212 _get_sin_theta_and_norm_G. *)
Definition sin_theta_and_norm (G : vec) (wavelength : R) : R * R := (norm G * wavelength / (4 * PI), norm G).
