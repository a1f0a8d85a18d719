(** * Specification vocabulary for clipping a line with a convex body. *)
From Verif Require Import Vec MBeam.
Open Scope R_scope.
(** The body: points on the inner side of every plane (point on plane, outward normal). *)
Definition in_body (planes : list (vec * vec)) (x : vec) : Prop :=
  forall pl, In pl planes -> dot (snd pl) (vsub x (fst pl)) <= 0.
(** The line through p with direction dir. *)
Definition on_line (p dir : vec) (t : R) : vec := vadd p (vscale t dir).
(** Faces parallel to the line. *)
Definition parallel_to (dir : vec) (pl : vec * vec) : Prop := dot (snd pl) dir = 0.
(** The part of the line inside the body is exactly t in [lo, hi]. *)
Definition chord (planes : list (vec * vec)) (p dir : vec) (lo hi : R) : Prop :=
  forall t, in_body planes (on_line p dir t) <-> lo <= t <= hi.
Definition misses (planes : list (vec * vec)) (p dir : vec) : Prop :=
  forall t, ~ in_body planes (on_line p dir t).
(** The body of a list of half-spaces n.x + d <= 0. *)
Definition in_halfspaces (eqs : list halfspace) (x : vec) : Prop :=
  forall h, In h eqs -> dot (hs_n h) x + hs_d h <= 0.
(** The half-spaces have unit normals, as returned by Qhull. *)
Definition unit_normals (eqs : list halfspace) : Prop := forall h, In h eqs -> norm (hs_n h) = 1.
(** [L] is the length of the part of the line through p with unit direction dir inside the body. *)
Definition length_inside (eqs : list halfspace) (p dir : vec) (L : R) : Prop :=
  (exists lo hi, (forall t, in_halfspaces eqs (on_line p dir t) <-> lo <= t <= hi) /\ lo <= hi /\ L = hi - lo) \/
  ((forall t, ~ in_halfspaces eqs (on_line p dir t)) /\ L = 0).
