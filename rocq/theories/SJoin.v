(** * Specification vocabulary: two samples in the same beam (C90). *)
From Verif Require Import Vec Spec MMotion MLaue MMesh MScattering MStrain MBeam MPolycrystal SPolycrystal.
Open Scope list_scope. Open Scope R_scope.

(** [p] holds the elements of [p1] followed by the elements of [p2], in place; all three refer to the same list of phases
    and have one phase number per element. *)
Definition joined (p1 p2 p : polycrystal) : Prop :=
  pc_U p = pc_U p1 ++ pc_U p2 /\ pc_eB p = pc_eB p1 ++ pc_eB p2 /\ pc_volumes p = pc_volumes p1 ++ pc_volumes p2 /\
  me_espherecentroids (pc_mesh_lab p) = me_espherecentroids (pc_mesh_lab p1) ++ me_espherecentroids (pc_mesh_lab p2) /\
  (exists l1 l2, pc_map p1 = MapTensor l1 /\ pc_map p2 = MapTensor l2 /\ pc_map p = MapTensor (l1 ++ l2) /\
     List.length l1 = List.length (pc_volumes p1) /\ List.length l2 = List.length (pc_volumes p2)) /\
  pc_phases p1 = pc_phases p /\ pc_phases p2 = pc_phases p.

(** Row [r] of table [pd] describes the same reflection as row [r1] of table [pd1], of an element whose number is larger by n. *)
Definition counterpart (n : nat) (pd1 pd : peaks_dict) (r1 r : list num) : Prop :=
  (forall c, c <> "grain_index"%string -> c <> "peak_index"%string -> field pd r c = field pd1 r1 c) /\
  exists e, has pd1 r1 "grain_index" (INR e) /\ has pd r "grain_index" (INR (n + e)).

(** Node numbers shifted by n. *)
Definition shift_nodes (n : nat) (e : nat * nat * nat * nat) : nat * nat * nat * nat :=
  let '(a, b, c, d) := e in ((n + a)%nat, (n + b)%nat, (n + c)%nat, (n + d)%nat).
