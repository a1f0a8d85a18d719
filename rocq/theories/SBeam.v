(** * Specification vocabulary for beams (no model function used except the
    half-space record). *)
From Verif Require Import Vec Spec MBeam.
Open Scope R_scope.

(** The open region described by a system of half-spaces n.x + d < 0. *)
Definition strictly_inside (hs : list halfspace) (p : vec) : Prop :=
  forall h, In h hs -> dot (hs_n h) p + hs_d h < 0.
Definition on_boundary_of (h : halfspace) (p : vec) : Prop := dot (hs_n h) p + hs_d h = 0.
(** The point dividing the segment p-q. *)
Definition between (s : R) (p q : vec) : vec := vadd (vscale (1 - s) p) (vscale s q).
(** Largest effect, at p, of rounding the four coefficients of a half-space
    to six decimals. *)
Definition rounding_at (p : vec) : R := / (2 * 10^6) * (Rabs (vx p) + Rabs (vy p) + Rabs (vz p) + 1).
(** A closed sphere of radius r about c meets the set P. *)
Definition sphere_meets (c : vec) (r : R) (P : vec -> Prop) : Prop := exists p, P p /\ dist p c <= r.
(** A point is covered by a list of closed intervals. *)
Definition covered (x : R) (l : list (R * R)) : Prop := exists a b, In (a, b) l /\ a <= x <= b.
(** p is a convex combination of the points vs. *)
Definition in_hull (vs : list vec) (p : vec) : Prop :=
  exists ws : list R, length ws = length vs /\ (forall w, In w ws -> 0 <= w) /\ sum_list ws = 1 /\
    p = fold_right vadd vzero (map (fun wv => vscale (fst wv) (snd wv)) (combine ws vs)).
(** Sample i belongs to a run of at least three candidates that lasts up to the last
    but one sample, is at least two samples after the start of that run, and the
    last sample is not a candidate. *)
Definition tail_cut (col : list bool) (i : nat) : Prop :=
  let N := length col in
  nth (N - 1) col false = false /\ (forall j, (i <= j < N - 1)%nat -> nth j col false = true) /\
  (2 <= i)%nat /\ nth (i - 1) col false = true /\ nth (i - 2) col false = true.
