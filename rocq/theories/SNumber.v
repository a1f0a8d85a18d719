(** * Specification vocabulary: renumbering the elements and phases of a sample (C91). *)
From Verif Require Import Vec Spec MMotion MLaue MMesh MScattering MStrain MBeam MPolycrystal SPolycrystal.
From Coq Require Import Permutation.
Open Scope list_scope. Open Scope R_scope.

(** [s] gives each of the numbers below [n] a new number below [n], no two the same. *)
Definition new_numbers (n : nat) (s : nat -> nat) : Prop :=
  (forall e, (e < n)%nat -> (s e < n)%nat) /\
  (forall e e', (e < n)%nat -> (e' < n)%nat -> s e = s e' -> e = e').
(** [l'] holds the entries of [l], entry number [e] of [l] at place [s e]. *)
Definition rearranged {A} (s : nat -> nat) (l l' : list A) : Prop :=
  List.length l' = List.length l /\ forall e, (e < List.length l)%nat -> nth_error l' (s e) = nth_error l e.
(** The element numbered [e] is of phase [i] in the one map exactly if element [s e] is of phase [u i] in the other. *)
Definition same_phases (s u : nat -> nat) (n k : nat) (l l' : list R) : Prop :=
  List.length l = n /\ List.length l' = n /\
  forall e i, (e < n)%nat -> (i < k)%nat -> (nth_error l e = Some (INR i) <-> nth_error l' (s e) = Some (INR (u i))).

(** [q] is the sample [p] in which element [e] has got the number [s e] and phase [i] the number [u i]
    (vertices may have been renumbered too). *)
Definition renumbered (s u : nat -> nat) (p q : polycrystal) : Prop :=
  new_numbers (List.length (pc_volumes p)) s /\ new_numbers (List.length (pc_phases p)) u /\
  rearranged s (pc_volumes p) (pc_volumes q) /\ rearranged s (pc_U p) (pc_U q) /\ rearranged s (pc_eB p) (pc_eB q) /\
  rearranged s (me_espherecentroids (pc_mesh_lab p)) (me_espherecentroids (pc_mesh_lab q)) /\
  rearranged u (pc_phases p) (pc_phases q) /\
  Permutation (me_coord (pc_mesh_lab p)) (me_coord (pc_mesh_lab q)) /\
  me_centroid (pc_mesh_lab q) = me_centroid (pc_mesh_lab p) /\
  exists l l', pc_map p = MapTensor l /\ pc_map q = MapTensor l' /\
    same_phases s u (List.length (pc_volumes p)) (List.length (pc_phases p)) l l'.

(** Row [r'] of table [pd'] describes the same reflection as row [r] of table [pd], with the new element and phase numbers. *)
Definition renamed (s u : nat -> nat) (pd pd' : peaks_dict) (r r' : list num) : Prop :=
  (forall c, c <> "grain_index"%string -> c <> "phase_number"%string -> c <> "peak_index"%string -> field pd' r' c = field pd r c) /\
  (exists e, has pd r "grain_index" (INR e) /\ has pd' r' "grain_index" (INR (s e))) /\
  (exists i, has pd r "phase_number" (INR i) /\ has pd' r' "phase_number" (INR (u i))).

(** Node numbers of an element after the vertices have been renumbered. *)
Definition rename_nodes (v : nat -> nat) (e : nat * nat * nat * nat) : nat * nat * nat * nat :=
  let '(a, b, c, d) := e in (v a, v b, v c, v d).
