(** * Model of xrd_simulator/templates.py.  No proofs in this file. *)
From Verif Require Import Vec MMotion MLaue MMesh MScattering MStrain MBeam MPolycrystal MDetector.
From Coq Require Import String.
Open Scope R_scope.

(** ** s3dxrd, templates.py:20-33, 36-94 *)
(** Values of the parameter dictionary: a number or an array of three numbers. *)
Inductive value := VNum (x : R) | VVec (v : vec).
Definition params := string -> option value.
(** 20-33 *)
Definition parameter_keys : list string :=
  ["detector_distance"; "number_of_detector_pixels_z"; "number_of_detector_pixels_y"; "detector_center_pixel_z";
   "detector_center_pixel_y"; "pixel_side_length_z"; "pixel_side_length_y"; "wavelength"; "beam_side_length_z";
   "beam_side_length_y"; "rotation_step"; "rotation_axis"]%string.
(** parameters[key]; an array where a number is needed (or vice versa) makes some later
    operation raise: TypeError here.  Absent keys: KeyError (never reached after the check). *)
Definition get_num (p : params) (k : string) : result R :=
  match p k with Some (VNum x) => Ok x | Some _ => Err TypeError | None => Err KeyError end.
Definition get_vec (p : params) (k : string) : result vec :=
  match p k with Some (VVec x) => Ok x | Some _ => Err TypeError | None => Err KeyError end.
(** 386-422 _get_detector_from_params, with the defaults of Detector.__init__
    (detector.py:124-137: sigma 1.0, threshold 0.02, kernel radius 2, all factors on). *)
Definition detector_from_params (p : params) : result detector :=
  let* pz := get_num p "pixel_side_length_z" in
  let* py := get_num p "pixel_side_length_y" in
  let* dist_ := get_num p "detector_distance" in
  let* ny := get_num p "number_of_detector_pixels_y" in
  let* nz := get_num p "number_of_detector_pixels_z" in
  let* cz := get_num p "detector_center_pixel_z" in
  let* cy := get_num p "detector_center_pixel_y" in
  make_detector (V3 dist_ (- cy * py) (- cz * pz)) (V3 dist_ ((ny - cy) * py) (- cz * pz))
    (V3 dist_ (- cy * py) ((nz - cz) * pz)) None (Some (Pair pz py)) 1 (2/100) 2 true true true.
(** 347-384 _get_beam_from_params *)
Definition beam_from_params (q : qhull) (p : params) : result beam :=
  let* lz := get_num p "beam_side_length_z" in
  let* ly := get_num p "beam_side_length_y" in
  let* d := get_num p "detector_distance" in
  let dz := lz / 2 in let dy := ly / 2 in
  let* wl := get_num p "wavelength" in
  make_beam q [V3 (- d) (- dy) (- dz); V3 (- d) dy (- dz); V3 (- d) (- dy) dz; V3 (- d) dy dz;
               V3 d (- dy) (- dz); V3 d dy (- dz); V3 d (- dy) dz; V3 d dy dz] (V3 1 0 0) wl (V3 0 1 0).
(** 326-344 _get_motion_from_params; the origin defaults to zero (motion.py:67). *)
Definition motion_from_params (p : params) : result motion :=
  let* axis := get_vec p "rotation_axis" in
  let* step := get_num p "rotation_step" in
  make_motion axis step vzero vzero.
(** 83-94 *)
Definition s3dxrd (q : qhull) (p : params) : result (beam * detector * motion) :=
  if forallb (fun k => match p k with Some _ => true | None => false end) parameter_keys then
    let* d := detector_from_params p in
    let* b := beam_from_params q p in
    let* m := motion_from_params p in
    Ok (b, d, m)
  else Err ValueError.

(** ** get_uniform_powder_sample, templates.py:264-323 *)
(** 301-304: the four corners appended for each grain. *)
Definition powder_corners (r : R) : list vec :=
  [V3 (r / sqrt 3) (r / sqrt 3) (- r / sqrt 3); V3 (r / sqrt 3) (- r / sqrt 3) (- r / sqrt 3);
   V3 (- r / sqrt 2) 0 (- r / sqrt 2); V3 0 0 r].
(** 298-306: the loop; node_number grows by 3 per grain. *)
Fixpoint powder_loop (r : R) (grains node_number : nat) : list vec * list (nat * nat * nat * nat) :=
  match grains with
  | O => ([], [])
  | S g => let '(coord, enod) := powder_loop r g (node_number + 3) in
           ((powder_corners r ++ coord)%list, (node_number, node_number + 1, node_number + 2, node_number + 3)%nat :: enod)
  end.
(** 298-323.  [rots n] is Rotation.random(n).as_matrix() (scipy, external).  Zero grains: the
    empty float array cannot be used as indices. *)
Definition powder_sample (x : xtal) (rots : nat -> list mat) (r : R) (grains : nat) (cell : list R) (sg : string)
  (strain : mats) (cif : option string) : result polycrystal :=
  match grains with
  | O => Err IndexError
  | _ =>
    let '(coord, enod) := powder_loop r grains 0 in
    let* me := build_mesh coord enod in
    let N := List.length (me_enod me) in
    make_polycrystal x me (Stack (rots N)) strain [make_phase cell sg cif] (Some (repeat 0 N))
  end.

(** ** _sample_ODF, templates.py:425-506, and utils.py:220-241 _alpha_to_quarternion *)
Record quat := Q { qx : R; qy : R; qz : R; qw : R }.
Definition alpha_to_quaternion (a1 a2 a3 : R) : quat :=
  Q (cos a1) (sin a1 * sin a2 * cos a3) (sin a1 * sin a2 * sin a3) (sin a1 * cos a2).
(** scipy Rotation.from_quat(q).as_matrix(): scalar last, normalised first. *)
Definition quat_norm (q : quat) : R := sqrt (qx q * qx q + qy q * qy q + qz q * qz q + qw q * qw q).
Definition quat_matrix (q : quat) : mat :=
  let n := quat_norm q in
  let x := qx q / n in let y := qy q / n in let z := qz q / n in let w := qw q / n in
  M3 (V3 (x*x - y*y - z*z + w*w) (2 * (x*y - z*w)) (2 * (x*z + y*w)))
     (V3 (2 * (x*y + z*w)) (- (x*x) + y*y - z*z + w*w) (2 * (y*z - x*w)))
     (V3 (2 * (x*z - y*w)) (2 * (y*z + x*w)) (- (x*x) - y*y + z*z + w*w)).
(** numpy.arange(start, stop, step): ceil((stop - start)/step) values. *)
Definition np_arange (start stop step : R) : list R :=
  map (fun k => start + INR k * step) (seq 0 (Z.to_nat (ceil ((stop - start) / step)))).
(** 1e-8 of 453-461 *)
Definition odf_eps : R := / 10^8.
(** 450-451: python float division by zero raises; int() truncates. *)
Definition odf_step (separation : R) : result R :=
  let dalpha := separation / 2 in
  if Req_EM_T (dalpha * 2) 0 then Err ZeroDivisionError else
  let n := ztrunc (PI / (dalpha * 2)) in
  if Z.eqb n 0 then Err ZeroDivisionError else Ok (PI / 2 / IZR n).
(** 452-461: one axis, [top] = pi/2, pi or 2 pi *)
Definition odf_axis (dalpha top : R) : list R :=
  np_arange (0 + dalpha / 2 + odf_eps) (top - dalpha / 2 - odf_eps + dalpha) dalpha.
(** 463-464: meshgrid(indexing="ij"), flattened *)
Definition odf_grid (dalpha : R) : list (R * R * R) :=
  list_prod (list_prod (odf_axis dalpha (PI / 2)) (odf_axis dalpha PI)) (odf_axis dalpha (2 * PI)).
(** 472-479 *)
Definition odf_volume (dalpha : R) (g : R * R * R) : R :=
  let '(g1, g2, g3) := g in
  let da := dalpha / 2 in
  let a := (1/2) * (g1 + da - sin (g1 + da) * cos (g1 + da)) - (1/2) * (g1 - da - sin (g1 - da) * cos (g1 - da)) in
  let b := - cos (g2 + da) + cos (g2 - da) in
  let c := (g3 + da) - (g3 - da) in
  a * b * c.
Definition grid_quat (g : R * R * R) : quat := let '(a1, a2, a3) := g in alpha_to_quaternion a1 a2 a3.
(** Randomness: [choice i p] is the index numpy.random.choice draws for coordinate number i
    with probabilities p, [rand i j] the j-th uniform number in [0,1) drawn for it. *)
Record generator := Gen { choice : nat -> list R -> nat; rand : nat -> nat -> R }.
(** 483-503 for coordinate number i: numpy.random.choice raises ValueError on a negative
    probability. *)
Definition draw_one (gen : generator) (odf : vec -> quat -> R) (dalpha : R) (i : nat) (x : vec) : result mat :=
  let grid := odf_grid dalpha in
  let probability := map (fun a => odf_volume dalpha a * odf x (grid_quat a)) grid in
  let total := sum_list probability in
  let* _ := assert_ (Rltb (Rabs (total - 1)) (5/100)) in
  let p := map (fun v => v / total) probability in
  if existsb (fun v => Rltb v 0) p then Err ValueError else
  let '(g1, g2, g3) := nth (choice gen i p) grid (0, 0, 0) in
  let a1 := g1 + dalpha * (rand gen i 0 - 1/2) in
  let a2 := g2 + dalpha * (rand gen i 1 - 1/2) in
  let a3 := g3 + dalpha * (rand gen i 2 - 1/2) in
  Ok (quat_matrix (alpha_to_quaternion a1 a2 a3)).
Fixpoint draw_all (gen : generator) (odf : vec -> quat -> R) (dalpha : R) (i : nat) (xs : list vec) : result (list mat) :=
  match xs with
  | [] => Ok []
  | x :: rest => let* m := draw_one gen odf dalpha i x in let* ms := draw_all gen odf dalpha (S i) rest in Ok (m :: ms)
  end.
(** 449-505 *)
Definition sample_odf (gen : generator) (odf : vec -> quat -> R) (separation : R) (xs : list vec) : result (list mat) :=
  let* dalpha := odf_step separation in
  let* _ := assert_ (Rltb (Rabs (sum_list (map (odf_volume dalpha) (odf_grid dalpha)) - PI * PI)) (/ 10^5)) in
  draw_all gen odf dalpha 0 xs.

(** ** polycrystal_from_odf, templates.py:97-261 *)
(** 168-176: cell size; x ** (1/3.0) is [cbrt] (Rpower on positive numbers). *)
Definition cell_circumradius (height radius : R) (crystals : nat) : R :=
  42/10 * Rpower (3 * (PI * radius^2 * height / INR crystals) / (PI * 4)) (1/3).
(** 182 *)
Definition cylinder_sides (height radius : R) (crystals : nat) : nat :=
  Z.to_nat (Z.max 8 (ztrunc (2 * PI * radius / cell_circumradius height radius crystals))).
(** 183-195: points *)
Definition cylinder_points (n : nat) (radius dz : R) : list vec :=
  let angle i := INR i * (2 * PI / INR n) in
  (map (fun i => V3 (radius * cos (angle i)) (radius * sin (angle i)) (- dz)) (seq 0 n) ++
   map (fun i => V3 (radius * cos (angle i)) (radius * sin (angle i)) dz) (seq 0 n) ++ [V3 0 0 (- dz); V3 0 0 dz])%list.
(** 202-224: facets *)
Definition cylinder_facets (n : nat) : list (nat * nat * nat) :=
  (map (fun i => (2 * n, i, (i + 1) mod n)%nat) (seq 0 n) ++
   map (fun i => (2 * n + 1, n + (i + 1) mod n, n + i)%nat) (seq 0 n) ++
   flat_map (fun i => [(i, (i + 1) mod n, n + i)%nat; ((i + 1) mod n, n + (i + 1) mod n, n + i)%nat]) (seq 0 n))%list.
(** 229-261.  [tetgen points facets max_volume] is meshpy.tet.build (external): vertices and
    elements.  Zero crystals: division by zero. *)
Definition polycrystal_from_odf (x : xtal) (gen : generator)
  (tetgen : list vec -> list (nat * nat * nat) -> R -> list vec * list (nat * nat * nat * nat))
  (odf : vec -> quat -> R) (crystals : nat) (height radius : R) (cell : list R) (sg : string) (cif : option string)
  (separation : R) (strain : vec -> mat) : result polycrystal :=
  match crystals with
  | O => Err ZeroDivisionError
  | _ =>
    let n := cylinder_sides height radius crystals in
    let '(vertices, elements) := tetgen (cylinder_points n radius (height / 2)) (cylinder_facets n)
                                   ((cell_circumradius height radius crystals)^3 / 6) in
    let* me := build_mesh vertices elements in
    let* orientation := sample_odf gen odf separation (me_ecentroids me) in
    make_polycrystal x me (Stack orientation) (Stack (map strain (me_ecentroids me))) [make_phase cell sg cif]
      (Some (repeat 0 (List.length (me_enod me))))
  end.
