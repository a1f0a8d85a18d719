(** * Model of the ray / convex-polyhedron clipping of xrd_simulator/utils.py:168-217.
    No proofs in this file. *)
From Verif Require Import Vec MMotion MLaue MMesh MScattering MBeam.
Open Scope R_scope.

(** torch.max(...).values / torch.min(...).values of a non-empty row. *)
Definition rmax_list (l : list R) : option R :=
  match l with [] => None | x :: xs => Some (fold_left Rmax xs x) end.
Definition rmin_list (l : list R) : option R :=
  match l with [] => None | x :: xs => Some (fold_left Rmin xs x) end.

(** utils.py:196-213, one plane with a non-zero denominator: parameter of the
    intersection of the line with the plane through [pp] with normal [n]. *)
Definition plane_param (p dir : vec) (pl : vec * vec) : R :=
  let '(pp, n) := pl in (dot n pp - dot p n) / dot n dir.

(** utils.py:168-217 for one line; planes are (plane_point, plane_normal) pairs.
    When no plane faces either way the result is 0 (202-205); a plane with
    denominator exactly 0 takes part in neither the maximum nor the minimum. *)
Definition clip_length (p dir : vec) (planes : list (vec * vec)) : R :=
  let te := filter (fun pl => Rltb (dot (snd pl) dir) 0) planes in
  let tl := filter (fun pl => Rltb 0 (dot (snd pl) dir)) planes in
  match rmax_list (map (plane_param p dir) te), rmin_list (map (plane_param p dir) tl) with
  | Some t_e, Some t_l => if Rltb (t_e + / 10^12) t_l then t_l - t_e else 0
  | _, _ => 0
  end.
(** All lines (parallel). *)
Definition clip_lengths (ps : list vec) (dir : vec) (planes : list (vec * vec)) : list R :=
  map (fun p => clip_length p dir planes) ps.
(** detector.py:1618-1623: plane points -offset * normal of the hull equations. *)
Definition hull_planes (eqs : list halfspace) : list (vec * vec) :=
  map (fun h => (vscale (- hs_d h) (hs_n h), hs_n h)) eqs.
