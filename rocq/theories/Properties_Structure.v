(** Generated by tools/gen_properties.py from PStructure.v: the property theorems,
    verbatim, each closed by [exact]. Contains nothing else. *)
From Verif Require Import Vec Spec MMotion MLaue MMesh MScattering MBeam MPolycrystal MStructure SStructure.
From Verif Require Import PLaue PMesh PRender PPolycrystal.
From Coq Require Import String Permutation Ratan.
From Verif Require Import PStructure.
Open Scope R_scope.

(** Each reflection gets the textbook sum for that reflection alone, whatever else is in the batch
    and however the atoms are divided into isotropic and anisotropic ones. *)
Theorem C61_formula : forall st u hkl, known_types st -> st_atoms st <> [] ->
  structure_factors st u hkl = Ok (map (fun h => (F_re st u h, F_im st u h)) hkl).
Proof. exact pC61_formula. Qed.
Print Assumptions C61_formula.

(** Batches do not interact: splitting the reflections in any way gives the same answers. *)
Theorem C61_batching : forall st u hkl1 hkl2, known_types st -> st_atoms st <> [] ->
  structure_factors st u (hkl1 ++ hkl2) =
  bind (structure_factors st u hkl1) (fun F1 => bind (structure_factors st u hkl2) (fun F2 => Ok (F1 ++ F2)%list)).
Proof. exact pC61_batching. Qed.
Print Assumptions C61_batching.

(** Atom types without a form factor are refused; otherwise one pair per reflection. *)
Theorem C61_unknown_type : forall st u hkl, ~ known_types st -> structure_factors st u hkl = Err KeyError.
Proof. exact pC61_unknown_type. Qed.
Print Assumptions C61_unknown_type.

Theorem C61_shape : forall st u hkl F, structure_factors st u hkl = Ok F -> List.length F = List.length hkl.
Proof. exact pC61_shape. Qed.
Print Assumptions C61_shape.

(** Without anomalous absorption F(-h) is the complex conjugate of F(h). *)
Theorem C61_friedel : forall st u h F G, no_dispersion st -> structure_factors st u [h; vneg h] = Ok [F; G] ->
  fst G = fst F /\ snd G = - snd F /\ intensity G = intensity F.
Proof. exact pC61_friedel. Qed.
Print Assumptions C61_friedel.

