(** * Specification vocabulary for random points in a convex hull. *)
From Verif Require Import Vec Spec SBeam.
Open Scope R_scope.
(** The arithmetic mean of the points. *)
Definition centre (points : list vec) (r : vec) : Prop :=
  vscale (INR (List.length points)) r = fold_right vadd vzero points.
(** Volume of the tetrahedron over a surface triangle with apex r. *)
Definition piece_volume (points : list vec) (r : vec) (s : nat * nat * nat) (v : R) : Prop :=
  exists a b c, nth_error points (fst (fst s)) = Some a /\ nth_error points (snd (fst s)) = Some b /\ nth_error points (snd s) = Some c /\
    v = Rabs (signed_vol6 r a b c) / 6.
Definition in_tetra (a b c d p : vec) : Prop :=
  exists s t u v, 0 <= s /\ 0 <= t /\ 0 <= u /\ 0 <= v /\ s + t + u + v = 1 /\
    p = vadd (vscale s a) (vadd (vscale t b) (vadd (vscale u c) (vscale v d))).
Definition valid_simplices (points : list vec) (simplices : list (nat * nat * nat)) : Prop :=
  forall a b c, In (a, b, c) simplices -> (a < List.length points)%nat /\ (b < List.length points)%nat /\ (c < List.length points)%nat.
(** A uniform number and four non-negative weights that are not all zero. *)
Definition draw_ok (d : R * (R * R * R * R)) : Prop :=
  let '(u, (a, b, c, e)) := d in 0 <= u < 1 /\ 0 <= a /\ 0 <= b /\ 0 <= c /\ 0 <= e /\ 0 < a + b + c + e.
