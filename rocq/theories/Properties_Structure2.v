(** Generated by tools/gen_properties.py from PStructure2.v: the property theorems,
    verbatim, each closed by [exact]. Contains nothing else. *)
From Verif Require Import Vec Spec MMotion MLaue MMesh MScattering MBeam MPolycrystal MStructure SStructure.
From Verif Require Import PLaue PMesh PRender PPolycrystal PStructure.
From Coq Require Import String Permutation Ratan.
From Verif Require Import PStructure2.
Open Scope R_scope.

(** Reflections equivalent by a symmetry of the space group have the same intensity, with or
    without dispersion and anisotropic displacements. *)
Theorem C61_equivalent_reflections : forall st u g h F G, metric_symmetry u g -> closed_under (st_ops st) g -> integer_vec h ->
  structure_factors st u [h; mv (mT (fst g)) h] = Ok [F; G] -> intensity G = intensity F.
Proof. exact pC61_equivalent_reflections. Qed.
Print Assumptions C61_equivalent_reflections.

(** Systematic absences: a reflection fixed by the rotation part of a symmetry whose translation
    part is not a whole number of planes has structure factor zero (glide planes, screw axes and
    centred cells). *)
Theorem C61_absences : forall st u g h F, metric_symmetry u g -> closed_under (st_ops st) g -> integer_vec h ->
  mv (mT (fst g)) h = h -> ~ (exists k, dot h (snd g) = IZR k) ->
  structure_factors st u [h] = Ok [F] -> F = (0, 0).
Proof. exact pC61_absences. Qed.
Print Assumptions C61_absences.

(** The resolution parameter is half the length of the reciprocal lattice vector, for any choice of
    lattice with the cell's lengths and angles. *)
Theorem C61_sintl : forall u a b c G h, lattice_of u a b c -> dot G a = vx h -> dot G b = vy h -> dot G c = vz h ->
  sintl u h = norm G / 2.
Proof. exact pC61_sintl. Qed.
Print Assumptions C61_sintl.

Example C61_screw_nonvacuous : forall x F, structure_factors (p21 x) cube4 [V3 0 1 0] = Ok [F] -> F = (0, 0).
Proof. exact xC61_screw. Qed.

Example C61_computed_nonvacuous : forall x hkl, exists F, structure_factors (p21 x) cube4 hkl = Ok F.
Proof. exact xC61_computed. Qed.

Example C61_lattice_nonvacuous : lattice_of cube4 (V3 4 0 0) (V3 0 4 0) (V3 0 0 4).
Proof. exact xC61_lattice. Qed.

Theorem C61_friedel_dispersion_refuted : structure_factors anomalous cube4 [V3 1 0 0; V3 (-1) 0 0] = Ok [(0, 1); (2, -1)] /\
  intensity (0, 1) <> intensity (2, -1).
Proof. exact pC61_friedel_dispersion_refuted. Qed.
Print Assumptions C61_friedel_dispersion_refuted.

