(** * Specification vocabulary for strain (no model file used). *)
From Verif Require Import Vec Spec.

Definition symmetric (A : mat) : Prop := mT A = A.
Definition quad (A : mat) (v : vec) : R := dot v (mv A v).
Definition positive_definite (A : mat) : Prop := forall v, v <> vzero -> 0 < quad A v.
Definition has_negative_direction (A : mat) : Prop := exists v, quad A v < 0.
Definition upper_triangular (A : mat) : Prop := vx (r2 A) = 0 /\ vx (r3 A) = 0 /\ vy (r3 A) = 0.
(** I + 2 eps: the metric (right Cauchy-Green tensor) of the strain eps. *)
Definition cauchy_green (eps : mat) : mat := madd mI (mscale 2 eps).
(** strain rotated to the crystal frame of orientation U *)
Definition to_crystal (U eps : mat) : mat := mm (mm (mT U) eps) U.
