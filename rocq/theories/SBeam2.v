(** * Specification vocabulary: half-space rows and LP results (C23, C25, C27). *)
From Verif Require Import Vec Spec MBeam.
Open Scope R_scope.

(** Lexicographic order of rows (nx, ny, nz, d). *)
Definition row_before (h k : halfspace) : Prop :=
  vx (hs_n h) < vx (hs_n k) \/ (vx (hs_n h) = vx (hs_n k) /\
  (vy (hs_n h) < vy (hs_n k) \/ (vy (hs_n h) = vy (hs_n k) /\
  (vz (hs_n h) < vz (hs_n k) \/ (vz (hs_n h) = vz (hs_n k) /\ hs_d h < hs_d k))))).
(** x satisfies all constraints, and the slacks are the distances left to each of them. *)
Definition lp_answer (hs : list halfspace) (x : vec) (slack : list R) : Prop :=
  List.length slack = List.length hs /\
  forall i h s, nth_error hs i = Some h -> nth_error slack i = Some s -> 0 <= s /\ s = - (dot (hs_n h) x + hs_d h).
Definition tight (x : vec) (h : halfspace) : Prop := dot (hs_n h) x + hs_d h = 0.
