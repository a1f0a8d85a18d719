(** * Model of xrd_simulator/detector.py: geometry and peak projection
    (lines 120-227, 382-755).  No proofs in this file.
    Rendering (render and the private kernels) is in MRender.v. *)
From Verif Require Import Vec MMotion MLaue MMesh MScattering MStrain MBeam MPolycrystal.
Open Scope R_scope.

(** Rows of float64 triples that may contain IEEE specials (no code of its own). *)
Record nvec := NV { nx : num; ny : num; nz : num }.
Definition nfin (v : vec) : nvec := NV (Fin (vx v)) (Fin (vy v)) (Fin (vz v)).
Definition nvadd (a b : nvec) : nvec := NV (nadd (nx a) (nx b)) (nadd (ny a) (ny b)) (nadd (nz a) (nz b)).
Definition nvsub (a b : nvec) : nvec := NV (nsub (nx a) (nx b)) (nsub (ny a) (ny b)) (nsub (nz a) (nz b)).
Definition nvscale (s : num) (a : nvec) : nvec := NV (nmul (nx a) s) (nmul (ny a) s) (nmul (nz a) s).
Definition nvdiv (z : bool) (a : nvec) (s : num) : nvec :=
  NV (ndiv z (nx a) s) (ndiv z (ny a) s) (ndiv z (nz a) s).
Definition nvneg (a : nvec) : nvec := NV (nneg (nx a)) (nneg (ny a)) (nneg (nz a)).
Definition ndot (a b : nvec) : num :=
  nadd (nadd (nmul (nx a) (nx b)) (nmul (ny a) (ny b))) (nmul (nz a) (nz b)).
Definition ncross (a b : nvec) : nvec :=
  NV (nsub (nmul (ny a) (nz b)) (nmul (nz a) (ny b)))
     (nsub (nmul (nz a) (nx b)) (nmul (nx a) (nz b)))
     (nsub (nmul (nx a) (ny b)) (nmul (ny a) (nx b))).
Definition nnorm (a : nvec) : num := nsqrt (ndot a a).
Definition nan3 : nvec := NV NaN NaN NaN.

(** A scalar-or-pair argument (detector.py:151-166). *)
Inductive one_or_two (A : Type) := Single (a : A) | Pair (a b : A).
Arguments Single {A} _.
Arguments Pair {A} _ _.
Definition first_of {A} (x : one_or_two A) : A := match x with Single a => a | Pair a _ => a end.
Definition second_of {A} (x : one_or_two A) : A := match x with Single a => a | Pair _ b => b end.

(** Attributes of a Detector (detector.py:141-178).  d_nz, d_ny are the first two
    entries of pixel_coordinates.shape. *)
Record detector := Det {
  d_c0 : vec; d_c1 : vec; d_c2 : vec;
  d_zmax : R; d_ymax : R;
  d_pz : R; d_py : R;
  d_zdhat : nvec; d_ydhat : nvec; d_normal : nvec;
  d_nz : nat; d_ny : nat;
  d_sigma : R; d_threshold : R; d_max_radius : Z;
  d_lorentz : bool; d_polarization : bool; d_structure : bool }.

(** Smallest integer >= x (std::ceil in torch.arange's length computation). *)
Definition ceil (x : R) : Z := (- Int_part (- x))%Z.
(** detector.py:417-418 torch.arange(0, stop, step): number of points; the step
    must be non-zero and must not point away from stop. *)
Definition arange_len (stop step : R) : result nat :=
  if Req_EM_T step 0 then Err RuntimeError
  else if Rltb step 0 && Rltb 0 stop then Err RuntimeError
  else Ok (Z.to_nat (ceil (stop / step))).

(** detector.py:147-166: pixel sizes.  n_pixels = 0 (a division by zero giving an
    infinite pixel) is outside of the model and mapped to RuntimeError. *)
Definition pixel_sizes (zmax ymax : R) (n_pixels : option (one_or_two Z)) (pixel_size : option (one_or_two R))
  : result (R * R) :=
  match n_pixels, pixel_size with
  | Some _, Some _ => Err ValueError
  | Some n, None =>
      if Z.eqb (first_of n) 0 || Z.eqb (second_of n) 0 then Err RuntimeError
      else Ok (zmax / IZR (first_of n), ymax / IZR (second_of n))
  | None, Some p => Ok (first_of p, second_of p)
  | None, None => Err ValueError
  end.

(** detector.py:124-178 __init__.  The point-spread kernel of line 174 (1727-1759) is
    in MRender.v; building it fails exactly for a negative radius cap (torch.arange of a
    negative size), which is checked here.
    0/0 does not depend on the sign of zero, hence the literal [false]. *)
Definition make_detector (c0 c1 c2 : vec) (n_pixels : option (one_or_two Z))
  (pixel_size : option (one_or_two R)) (sigma threshold : R) (max_radius : Z)
  (use_lorentz use_polarization use_structure : bool) : result detector :=
  let zmax := norm (vsub c2 c0) in
  let ymax := norm (vsub c1 c0) in
  let* pp := pixel_sizes zmax ymax n_pixels pixel_size in
  let zdhat := nvdiv false (nfin (vsub c2 c0)) (Fin zmax) in
  let ydhat := nvdiv false (nfin (vsub c1 c0)) (Fin ymax) in
  let n := ncross zdhat ydhat in
  let normal := nvdiv false n (nnorm n) in
  let* nz := arange_len zmax (fst pp) in
  let* ny := arange_len ymax (snd pp) in
  if (max_radius <? 0)%Z then Err RuntimeError else
  Ok (Det c0 c1 c2 zmax ymax (fst pp) (snd pp) zdhat ydhat normal nz ny
        sigma threshold max_radius use_lorentz use_polarization use_structure).

(** detector.py:404-430 _get_pixel_coordinates. *)
Definition pixel_coordinate (d : detector) (i j : nat) : nvec :=
  nvadd (nvadd (nfin (d_c0 d)) (nvscale (Fin (INR i * d_pz d)) (d_zdhat d)))
        (nvscale (Fin (INR j * d_py d)) (d_ydhat d)).
Definition pixel_coordinates (d : detector) : list (list nvec) :=
  map (fun i => map (pixel_coordinate d i) (seq 0 (d_ny d))) (seq 0 (d_nz d)).

(** detector.py:382-398 contains. *)
Definition det_contains (d : detector) (zd yd : num) : bool :=
  nle (Fin 0) zd && nle zd (Fin (d_zmax d)) && nle (Fin 0) yd && nle yd (Fin (d_ymax d)).

(** detector.py:431-468 _get_intersection, one ray. [z]: sign of a zero denominator. *)
Definition get_intersection (z : bool) (d : detector) (dir src : nvec) : num * num * num :=
  let s := ndiv z (ndot (nvsub (nfin (d_c0 d)) src) (d_normal d)) (ndot dir (d_normal d)) in
  let p := if nlt s (Fin 0) then nan3 else nvadd src (nvscale s dir) in
  let zd := ndot (nvsub p (nfin (d_c0 d))) (d_zdhat d) in
  let yd := ndot (nvsub p (nfin (d_c0 d))) (d_ydhat d) in
  let dn := nvdiv z dir (nnorm dir) in
  let nn := nvdiv z (d_normal d) (nnorm (d_normal d)) in
  (zd, yd, nmul (nacos (ndot dn (nvneg nn))) (Fin (180 / PI))).

(** detector.py:470-508 _get_wrapping_cone; torch.max propagates NaN. *)
Definition nmax (a b : num) : num :=
  match a, b with NaN, _ | _, NaN => NaN | _, _ => if nlt a b then b else a end.
Definition corner_angle (z : bool) (k src corner : vec) : num :=
  let g := nfin (vsub corner src) in
  nacos (ndot (nvdiv z g (nnorm g)) (nvdiv z (nfin k) (nnorm (nfin k)))).
Definition wrapping_cone (z : bool) (d : detector) (k src : vec) : num :=
  let c3 := vadd (d_c2 d) (vsub (d_c1 d) (d_c0 d)) in
  ndiv z (nmax (nmax (nmax (corner_angle z k src (d_c0 d)) (corner_angle z k src (d_c1 d)))
                     (corner_angle z k src (d_c2 d))) (corner_angle z k src c3)) (Fin 2).

(** detector.py:510-529 _detector_coordinate_to_pixel_index: int() truncates toward 0. *)
Definition ztrunc (x : R) : Z := if Rlt_dec x 0 then ceil x else Int_part x.
Definition pixel_index (d : detector) (zd yd : R) : Z * Z :=
  (ztrunc (zd / d_pz d), ztrunc (yd / d_py d)).

(** detector.py:566-592: min and max of the non-NaN values. *)
Definition nonnan (x : num) : bool := match x with NaN => false | _ => true end.
Definition nmin2 (a b : num) : num := if nlt b a then b else a.
Definition nmax2 (a b : num) : num := if nlt a b then b else a.
Definition range_of (l : list num) : option (num * num) :=
  match filter nonnan l with
  | [] => None
  | x :: xs => Some (fold_left nmin2 xs x, fold_left nmax2 xs x)
  end.
(** detector.py:576-592: one axis: clip to [0, vmax]; None when nothing is left.
    The final clipping is against int(vmax / pixel). *)
Definition clip_axis (r : num * num) (vmax : R) : option (R * R) :=
  match nmax2 (fst r) (Fin 0), nmin2 (snd r) (Fin vmax) with
  | Fin lo, Fin hi => if Rltb hi lo then None else Some (lo, hi)
  | _, _ => None          (* an infinite lower bound / -inf upper bound: min > max *)
  end.
Definition axis_box (lohi : R * R) (vmax pixel : R) : Z * Z :=
  (ztrunc (fst lohi / pixel), Z.min (ztrunc (snd lohi / pixel) + 1) (ztrunc (vmax / pixel))).
(** detector.py:531-592 _get_projected_bounding_box. *)
Definition projected_box (z : bool) (d : detector) (vertices : list vec) (kout : vec)
  : option (Z * Z * Z * Z) :=
  let pr := map (fun v => get_intersection z d (nfin kout) (nfin v)) vertices in
  match range_of (map (fun t => fst (fst t)) pr), range_of (map (fun t => snd (fst t)) pr) with
  | Some rz, Some ry =>
      match clip_axis rz (d_zmax d), clip_axis ry (d_ymax d) with
      | Some bz, Some by_ =>
          let '(r0, r1_) := axis_box bz (d_zmax d) (d_pz d) in
          let '(c0, c1) := axis_box by_ (d_ymax d) (d_py d) in
          Some (r0, r1_, c0, c1)
      | _, _ => None
      end
  | _, _ => None
  end.

(** ** peaks_detector_intersection, detector.py:599-755 *)
Definition row_nvec (r : list num) (j : nat) : nvec := NV (ncol r j) (ncol r (j+1)) (ncol r (j+2)).
(** 684-686: append zd, yd, incident angle. *)
Definition add_hit (z : bool) (d : detector) (r : list num) : list num :=
  let '(zd, yd, a) := get_intersection z d (row_nvec r 13) (row_nvec r 16) in r ++ [zd; yd; a].
(** 689-692: mask on columns 25 and 26. *)
Definition hit_mask (d : detector) (r : list num) : bool := det_contains d (ncol r 25) (ncol r 26).
(** 695-707: frame index of a diffraction time (bucketize counts the bin edges
    strictly below the time; clamped). *)
Definition frame_of (frames : Z) (t : num) : Z :=
  if (frames <=? 1)%Z then 0%Z
  else
    let bins := linspace01 (Z.to_nat frames + 1) in
    let below := List.length (filter (fun b => negb (nle t (Fin b))) bins) in
    Z.max 0 (Z.min (Z.of_nat below - 1) (frames - 1)).
Definition add_frame (frames : Z) (r : list num) : list num := r ++ [Fin (IZR (frame_of frames (ncol r 6)))].
(** 714-720: product of the enabled factors, in this order. *)
Definition intensity (d : detector) (r : list num) : num :=
  let i0 := Fin 1 in
  let i1 := if d_structure d then nmul i0 (ncol r 5) else i0 in
  let i2 := if d_polarization d then nmul i1 (ncol r 20) else i1 in
  if d_lorentz d then nmul i2 (ncol r 19) else i2.
Definition add_intensity (d : detector) (r : list num) : list num := r ++ [intensity d r].
(** 728, 750: finite and positive value in column 29. *)
Definition valid_intensity (r : list num) : bool := is_finite (ncol r 29) && nlt (Fin 0) (ncol r 29).

(** 684, 709, 724 *)
Definition new_columns : list string :=
  ["zd"; "yd"; "incident_angle"; "frame"; "intensity_factors"]%string.

(** The whole call; the caller's dictionary is not modified (dict() copy, 752).
    Tables narrower than 25 columns fail at the read of column 29 (or earlier).
    Warnings are not modelled. *)
Definition project (z : bool) (d : detector) (pd : peaks_dict) (frames : Z) : result peaks_dict :=
  if forallb (fun r => Nat.leb 25 (List.length r)) (pd_peaks pd) then
    let p1 := map (add_hit z d) (pd_peaks pd) in
    let p2 := filter (hit_mask d) p1 in
    let p3 := map (add_frame frames) p2 in
    let p4 := map (add_intensity d) p3 in
    let p5 := filter valid_intensity p4 in
    Ok (PD p5 (pd_columns pd ++ new_columns) (pd_incident pd) (pd_wavelength pd) (pd_axis pd)
           (pd_mesh pd) (pd_motion pd) (pd_beam pd))
  else Err IndexError.
