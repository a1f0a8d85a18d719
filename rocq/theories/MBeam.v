(** * Model of xrd_simulator/beam.py.  No proofs in this file.
    Qhull (scipy.spatial.ConvexHull / HalfspaceIntersection) and the LP solver are
    external: their results are arguments of the modelled functions. *)
From Verif Require Import Vec MMotion MLaue MMesh MScattering.
Open Scope R_scope.

(** A half-space row [nx, ny, nz, d]: the points with n.x + d <= 0. *)
Record halfspace := HS { hs_n : vec; hs_d : R }.
Definition hs_val (h : halfspace) (p : vec) : R := dot (hs_n h) p + hs_d h.

(** External hull routines used by the beam: number of hull vertices of a point
    set; equations with option "QJ"; equations with default options. *)
Record qhull := Qhull {
  qh_nvert : list vec -> result nat;
  qh_eqs_QJ : list vec -> result (list halfspace);
  qh_eqs : list vec -> result (list halfspace)
}.

(** numpy.round(decimals=6): multiply, round half to even, divide. *)
Definition rint (x : R) : Z :=
  let n := Int_part x in
  if Rlt_dec (frac_part x) (1/2) then n
  else if Rlt_dec (1/2) (frac_part x) then (n + 1)%Z
  else if Z.even n then n else (n + 1)%Z.
Definition round6 (x : R) : R := IZR (rint (x * 10^6)) / 10^6.
Definition hs_round (h : halfspace) : halfspace :=
  HS (V3 (round6 (vx (hs_n h))) (round6 (vy (hs_n h))) (round6 (vz (hs_n h)))) (round6 (hs_d h)).

(** numpy.unique(axis=0): rows sorted lexicographically, duplicates removed. *)
Fixpoint row_lt (a b : list R) : bool :=
  match a, b with
  | x :: xs, y :: ys => if Rlt_dec x y then true else if Rlt_dec y x then false else row_lt xs ys
  | _, _ => false
  end.
Definition hs_row (h : halfspace) : list R := [vx (hs_n h); vy (hs_n h); vz (hs_n h); hs_d h].
Fixpoint insert_unique (h : halfspace) (l : list halfspace) : list halfspace :=
  match l with
  | [] => [h]
  | k :: ks => if row_lt (hs_row h) (hs_row k) then h :: l
               else if row_lt (hs_row k) (hs_row h) then k :: insert_unique h ks
               else l
  end.
Definition unique_rows (l : list halfspace) : list halfspace := fold_right insert_unique [] l.
(** beam.py:103-107 and 162, 351: round to 6 decimals, then unique. *)
Definition clean_halfspaces (l : list halfspace) : list halfspace := unique_rows (map hs_round l).

(** beam.py:48-65: attributes of a Beam. *)
Record beam := Beam {
  b_wave_vector : vec;
  b_wavelength : R;
  b_vertices : list vec;
  b_centroid : vec;
  b_halfspaces : list halfspace;
  b_polarization : vec
}.

(** beam.py:88-109 set_beam_vertices: (vertices, centroid, halfspaces). *)
Definition beam_vertex_state (q : qhull) (vs : list vec)
  : result (list vec * vec * list halfspace) :=
  let* n := qh_nvert q vs in
  let* _ := assert_ (Nat.eqb (length vs) n) in
  let* eqs := qh_eqs_QJ q vs in
  Ok (vs, mean_list vs, clean_halfspaces eqs).
Definition set_beam_vertices (q : qhull) (b : beam) (vs : list vec) : result beam :=
  let* s := beam_vertex_state q vs in
  let '(v, c, h) := s in
  Ok (Beam (b_wave_vector b) (b_wavelength b) v c h (b_polarization b)).

(** tensor / norm, component by component. *)
Definition vdiv (a : vec) (s : R) : vec := V3 (vx a / s) (vy a / s) (vz a / s).

(** beam.py:67-86 __init__.  [wavelength] is a python float: 2*pi/0 raises
    ZeroDivisionError.  A zero propagation or polarization vector gives NaN
    components, on which torch.allclose is false: AssertionError (after the hull
    calls).  allclose(dot, 0): |dot| <= 1e-8. *)
Definition make_beam (q : qhull) (vs : list vec) (dir : vec) (wavelength : R) (pol : vec)
  : result beam :=
  if Req_EM_T wavelength 0 then Err ZeroDivisionError else
  let wv := vdiv (vscale (2 * PI / wavelength) dir) (norm dir) in
  let* s := beam_vertex_state q vs in
  let '(v, c, h) := s in
  let p := vdiv pol (norm pol) in
  if Req_EM_T (norm dir) 0 then Err AssertionError else
  if Req_EM_T (norm pol) 0 then Err AssertionError else
  let* _ := assert_ (Rleb (Rabs (dot p wv)) (/ 10^8)) in
  Ok (Beam wv wavelength v c h p).

(** beam.py:127-139 _contains: strict; single point and (3,n) batch. *)
Definition beam_contains (hs : list halfspace) (p : vec) : bool :=
  forallb (fun h => Rltb (hs_val h p) 0) hs.
Definition beam_contains_batch (hs : list halfspace) (ps : list vec) : list bool :=
  map (beam_contains hs) ps.

(** beam.py:195-217 / 219-256: what is written and how it is read back (path
    handling is in MPersist). *)
Record beam_file := BeamFile {
  bf_wave_vector : vec; bf_vertices : list vec; bf_polarization : vec;
  bf_halfspaces : list halfspace; bf_wavelength : R }.
Definition beam_dump (b : beam) : beam_file :=
  BeamFile (b_wave_vector b) (b_vertices b) (b_polarization b) (b_halfspaces b) (b_wavelength b).
Definition beam_undump (q : qhull) (f : beam_file) : result beam :=
  let* b := make_beam q (bf_vertices f) (bf_wave_vector f) (bf_wavelength f) (bf_polarization f) in
  Ok (Beam (b_wave_vector b) (b_wavelength b) (b_vertices b) (b_centroid b)
           (bf_halfspaces f) (b_polarization b)).

(** ** _intersect, beam.py:141-193 *)
(** scipy linprog (beam.py:275-285): None on failure, else x and the slacks. *)
Definition lp_solver := list halfspace -> option (vec * list R).
(** numpy.linalg.solve(A^T A, A^T rhs) (289-291): external; an exception or the step. *)
Definition lsq_solver := list halfspace -> result vec.
Definition select_zero_slack (hs : list halfspace) (slack : list R) : list halfspace :=
  map fst (filter (fun hs => Reqb (snd hs) 0) (combine hs slack)).

(** beam.py:258-300 _find_feasible_point. *)
Definition find_feasible (lp : lp_solver) (lsq : lsq_solver) (hs : list halfspace)
  : result (option vec) :=
  match lp hs with
  | None => Ok None
  | Some (x, slack) =>
      let* trial :=
        if existsb (fun s => Reqb s 0) slack
        then let* dx := lsq (select_zero_slack hs slack) in Ok (vadd x dx)
        else Ok x in
      if forallb (fun h => Rltb (hs_val h trial) (- / 10^8)) hs then Ok (Some trial) else Ok None
  end.

Inductive intersection :=
| WholeBody                                       (* 155-159: hull of the vertices *)
| HalfspaceProblem (hs : list halfspace) (p : vec) (* 187-191: HalfspaceIntersection(hs, p) *)
| NoIntersection.                                 (* 193 *)

(** beam.py:154-193: everything up to the call of HalfspaceIntersection. *)
Definition beam_intersect (q : qhull) (lp : lp_solver) (lsq : lsq_solver)
  (beam_hs : list halfspace) (vertices : list vec) : result intersection :=
  if forallb (fun b => b) (beam_contains_batch beam_hs vertices) then Ok WholeBody else
  let* eqs := qh_eqs q vertices in
  let combined := clean_halfspaces eqs ++ beam_hs in
  let c := mean_list vertices in
  if beam_contains beam_hs c then Ok (HalfspaceProblem combined c) else
  let trials := map (fun v => vadd c (vscale (99/100) (vsub v c))) vertices in
  match find (beam_contains beam_hs) trials with
  | Some p => Ok (HalfspaceProblem combined p)
  | None =>
      let* o := find_feasible lp lsq combined in
      match o with
      | Some p => Ok (HalfspaceProblem combined p)
      | None => Ok NoIntersection
      end
  end.

(** ** Candidate spheres, beam.py:302-357 *)
Fixpoint rmin (l : list R) : option R :=
  match l with
  | [] => None
  | x :: xs => match rmin xs with None => Some x | Some m => Some (Rmin x m) end
  end.
(** int(): truncation toward zero of a nonnegative real. *)
Definition trunc_nat (x : R) : nat := Z.to_nat (Int_part x).
(** beam.py:335-350: number of sampled times (radii positive; torch.min of an
    empty tensor raises RuntimeError). *)
Definition n_samples (radii : list R) (m : motion) : result nat :=
  match rmin radii with
  | None => Err RuntimeError
  | Some r =>
      let dx := r / 2 in
      let tr := Rmax (Rabs (vx (m_trans m) / dx))
                     (Rmax (Rabs (vy (m_trans m) / dx)) (Rabs (vz (m_trans m) / dx))) in
      Ok (trunc_nat (Rmax tr (Rmax (m_angle m * (180 / PI)) 2) + 1))
  end.
(** torch.linspace(0, 1, n), n >= 2. *)
Definition linspace01 (n : nat) : list R := map (fun i => INR i / INR (n - 1)) (seq 0 n).

(** One sampled time (354-362): not a candidate if some half-space of the
    inversely moved beam is further away than the radius. *)
Definition candidate_row (q : qhull) (vertices : list vec) (inv : motion)
  (centres : list vec) (radii : list R) (t : R) : result (list bool) :=
  let* eqs := qh_eqs q (map (move_at inv t) vertices) in
  let hs := clean_halfspaces eqs in
  Ok (zip_with (fun c r => negb (existsb (fun h => Rltb r (hs_val h c)) hs)) centres radii).

(** beam.py:302-364 with [centres] the rows of the passed 2-d array: the code
    multiplies (m,3) by sphere_centres.T, so rows are centres; a single centre
    broadcasts against the radii. *)
Definition candidate_spheres (q : qhull) (vertices : list vec) (m : motion)
  (centres : list vec) (radii : list R) : result (list (list bool) * list R) :=
  let* inv := motion_inverse m in
  let* n := n_samples radii m in
  let ts := linspace01 n in
  let centres := match centres with [c] => repeat c (length radii) | _ => centres end in
  if negb (Nat.eqb (length centres) (length radii)) then Err RuntimeError else
  let* rows := traverse (candidate_row q vertices inv centres radii) ts in
  Ok (rows, ts).
(** The documented (3,n) layout: the passed array has the three coordinate rows;
    read as centres it is accepted only when n = 3. *)
Definition candidate_spheres_doc (q : qhull) (vertices : list vec) (m : motion)
  (xs ys zs : list R) (radii : list R) : result (list (list bool) * list R) :=
  match xs, ys, zs with
  | [x1; x2; x3], [y1; y2; y3], [z1; z2; z3] =>
      candidate_spheres q vertices m [V3 x1 x2 x3; V3 y1 y2 y3; V3 z1 z2 z3] radii
  | _, _, _ => Err RuntimeError
  end.

(** ** Proximity intervals, beam.py:403-446, for one column of the mask.
    [col] and [ts] have the same length N >= 2. None models [None]. *)
Definition set_last_end (e : R) (acc : list (R * R)) : list (R * R) :=
  match rev acc with [] => acc | (a, _) :: r => rev ((a, e) :: r) end.
Definition tnth (ts : list R) (i : nat) : R := nth i ts 0.
Fixpoint prox_loop (col : nat -> bool) (ts : list R) (i n : nat) (counting : bool)
  (acc : list (R * R)) : bool * list (R * R) :=
  match n with
  | O => (counting, acc)
  | S n' =>
      if col i && negb counting then
        prox_loop col ts (S i) n' true (acc ++ [(tnth ts (i - 1), tnth ts (i + 1))])
      else if negb (col i) && counting then
        prox_loop col ts (S i) n' false (set_last_end (tnth ts (i + 1)) acc)
      else prox_loop col ts (S i) n' counting acc
  end.
Definition proximity (col : list bool) (ts : list R) : option (list (R * R)) :=
  let N := length col in
  let c := fun i => nth i col false in
  if negb (existsb (fun b => b) col) then None else
  let start := if c 0%nat then (true, [(tnth ts 0, tnth ts 1)]) else (false, []) in
  let mid := prox_loop c ts 1 (N - 2) (fst start) (snd start) in
  let l := (N - 1)%nat in
  Some (if c l then
          if fst mid then set_last_end (tnth ts l) (snd mid)
          else snd mid ++ [(tnth ts (l - 1), tnth ts l)]
        else snd mid).
