(** Generated by tools/gen_properties.py from PStrain.v: the property theorems,
    verbatim, each closed by [exact]. Contains nothing else. *)
From Coq Require Import Classical.
From Verif Require Import Vec Spec SStrain MLaue PLaue MStrain.
From Verif Require Import PStrain.

(** ** C65 *)
Theorem C65_tensor_of_vector : forall e, symmetric e -> strain_as_tensor (strain_as_vector e) = Ok e.
Proof. exact pC65_tensor_of_vector. Qed.
Print Assumptions C65_tensor_of_vector.

Theorem C65_vector_of_tensor : forall v, length v = 6%nat ->
  exists e, strain_as_tensor v = Ok e /\ symmetric e /\ strain_as_vector e = v.
Proof. exact pC65_vector_of_tensor. Qed.
Print Assumptions C65_vector_of_tensor.

Theorem C65_wrong_length : forall v, length v <> 6%nat -> strain_as_tensor v = Err ValueError.
Proof. exact pC65_wrong_length. Qed.
Print Assumptions C65_wrong_length.

(** The packing keeps six of nine entries: a non-symmetric tensor is not recovered. *)
Theorem C65_only_symmetric_refuted : exists e, strain_as_tensor (strain_as_vector e) <> Ok e.
Proof. exact pC65_only_symmetric_refuted. Qed.
Print Assumptions C65_only_symmetric_refuted.

Example C65_sym_nonvacuous : symmetric (M3 (V3 1 2 3) (V3 2 4 5) (V3 3 5 6)).
Proof. exact xC65_sym. Qed.

(** The lattice matrix of each element encodes exactly its strain: with B0 the
    unstrained reciprocal matrix, B0 = F B where F is upper triangular with
    positive determinant and F^T F = I + 2 U^T eps U. *)
Theorem C20_metric : forall B0 es Us Bs i e U B,
  lab_strain_to_B B0 es Us = Ok Bs ->
  nth_error es i = Some e -> nth_error Us i = Some U -> nth_error Bs i = Some B -> symmetric e ->
  exists F, upper_triangular F /\ 0 < det F /\ mm F B = B0 /\ mm (mT F) F = cauchy_green (to_crystal U e).
Proof. exact pC20_metric. Qed.
Print Assumptions C20_metric.

(** Physical meaning: for every lattice plane the spacing d = 2 pi/|G| of the
    strained element and d0 of the unstrained lattice satisfy
    (d/d0)^2 = 1 + 2 N.eps N, with N the lab-frame plane normal and eps the
    lab-frame strain given by the user. *)
Theorem C20_plane_spacing : forall B0 es Us Bs i e U B h G N,
  lab_strain_to_B B0 es Us = Ok Bs ->
  nth_error es i = Some e -> nth_error Us i = Some U -> nth_error Bs i = Some B ->
  symmetric e -> is_rotation U ->
  G = mv U (mv B h) -> G <> vzero -> N = vscale (/ norm G) G ->
  unit N /\ (norm (mv B0 h) / norm G) ^ 2 = 1 + 2 * quad e N.
Proof. exact pC20_plane_spacing. Qed.
Print Assumptions C20_plane_spacing.

(** Converting B back to a strain vector recovers the crystal-frame strain. *)
Theorem C20_round_trip : forall B0 es Us Bs i e U B,
  lab_strain_to_B B0 es Us = Ok Bs -> det B0 <> 0 ->
  nth_error es i = Some e -> nth_error Us i = Some U -> nth_error Bs i = Some B -> symmetric e ->
  b_to_epsilon B B0 = Ok (strain_as_vector (to_crystal U e)).
Proof. exact pC20_round_trip. Qed.
Print Assumptions C20_round_trip.

(** Zero strain leaves the lattice unstrained, for any orientation. *)
Theorem C20_zero_strain : forall B0 U, lab_strain_to_B B0 [mzero] [U] = Ok [B0].
Proof. exact pC20_zero_strain. Qed.
Print Assumptions C20_zero_strain.

(** The outcome for a batch of crystal-frame strains: matrices for every element
    when all metrics are positive definite; otherwise an exception - ValueError as
    documented if some metric has a negative direction and the batch has at
    least three elements, IndexError for shorter batches, LinAlgError if all
    are non-negative but one is singular. *)
Theorem C21_outcomes : forall B0 es, Forall symmetric es ->
  (Forall (fun e => positive_definite (cauchy_green e)) es /\
     exists Bs, epsilon_to_b B0 es = Ok Bs /\ length Bs = length es) \/
  (Exists (fun e => has_negative_direction (cauchy_green e)) es /\
     epsilon_to_b B0 es = Err (if Nat.ltb (length es) 3 then IndexError else ValueError)) \/
  (Forall (fun e => ~ has_negative_direction (cauchy_green e)) es /\
     Exists (fun e => ~ positive_definite (cauchy_green e)) es /\
     epsilon_to_b B0 es = Err LinAlgError).
Proof. exact pC21_outcomes. Qed.
Print Assumptions C21_outcomes.

(** Documented exception type refuted: one infeasible element. *)
Theorem C21_documented_exception_refuted : exists B0 e, symmetric e /\
  has_negative_direction (cauchy_green e) /\ epsilon_to_b B0 [e] = Err IndexError.
Proof. exact pC21_documented_exception_refuted. Qed.
Print Assumptions C21_documented_exception_refuted.

(** Both triangles: an upper-triangle-only perturbation of the strain is ignored
    (eigvalsh and cholesky read the lower triangle). *)
Theorem C21_upper_triangle_ignored : forall B0 e e',
  lower_sym e = lower_sym e' -> epsilon_to_b B0 [e] = epsilon_to_b B0 [e'].
Proof. exact pC21_upper_triangle_ignored. Qed.
Print Assumptions C21_upper_triangle_ignored.

Example C20_strained_nonvacuous : exists Bs, lab_strain_to_B mI [M3 (V3 (1/100) (1/200) 0) (V3 (1/200) 0 0) (V3 0 0 (-1/100))] [mI] = Ok Bs /\ length Bs = 1%nat.
Proof. exact xC20_strained. Qed.

