(** Generated by tools/gen_properties.py from PPowder.v: the property theorems,
    verbatim, each closed by [exact]. Contains nothing else. *)
From Verif Require Import Vec Spec MMotion MLaue MMesh SMesh MScattering MStrain MBeam MPolycrystal MDetector MTemplates STemplates.
From Verif Require Import PLaue PMesh PBeam PDetector PStrain PPolycrystal PPolycrystal3.
From Coq Require Import String Permutation.
From Verif Require Import PPowder.
Open Scope R_scope.

(** A powder sample has as many elements as requested.  Each of them is the same tetrahedron,
    whose four corners lie on the sphere of the given radius around the origin (only the order of
    the corners changes), so it lies inside that sphere. *)
Theorem C56_elements : forall x rots r n cell sg strain cif p, 0 < r -> powder_sample x rots r n cell sg strain cif = Ok p ->
  List.length (me_enod (pc_mesh_lab p)) = n /\
  (forall i, (i < n)%nat -> exists a b c d, corners (pc_mesh_lab p) i a b c d) /\
  forall i a b c d, corners (pc_mesh_lab p) i a b c d ->
    Permutation [a; b; c; d] [V3 (r / sqrt 3) (r / sqrt 3) (- r / sqrt 3); V3 (r / sqrt 3) (- r / sqrt 3) (- r / sqrt 3); V3 (- r / sqrt 2) 0 (- r / sqrt 2); V3 0 0 r] /\
    norm a = r /\ norm b = r /\ norm c = r /\ norm d = r /\
    forall s t u v, 0 <= s -> 0 <= t -> 0 <= u -> 0 <= v -> s + t + u + v = 1 -> norm (vadd (vscale s a) (vadd (vscale t b) (vadd (vscale u c) (vscale v d)))) <= r.
Proof. exact pC56_elements. Qed.
Print Assumptions C56_elements.

(** All grains have the same positive volume, belong to the one phase and get the orientations
    drawn; the mesh's own (signed) volume attribute alternates between minus and plus that
    volume, starting with minus. *)
Theorem C56_volumes : forall x rots r n cell sg strain cif p, 0 < r -> powder_sample x rots r n cell sg strain cif = Ok p ->
  exists vol, 0 < vol /\ pc_volumes p = repeat vol n /\
    (forall i, (i < n)%nat -> nth_error (me_evolumes (pc_mesh_lab p)) i = Some ((if Nat.even i then -1 else 1) * vol)) /\
    pc_U p = rots n /\ pc_map p = MapTensor (repeat 0 n) /\ pc_phases p = [Phase cell sg cif None None].
Proof. exact pC56_volumes. Qed.
Print Assumptions C56_volumes.

(** The nodes of each grain but the last overlap with the next grain's, and the last n - 1 of
    the 4 n nodes belong to no element. *)
Theorem C56_spare_nodes : forall x rots r n cell sg strain cif p, powder_sample x rots r n cell sg strain cif = Ok p ->
  List.length (me_coord (pc_mesh_lab p)) = (4 * n)%nat /\
  forall node, (exists i a b c d, nth_error (me_enod (pc_mesh_lab p)) i = Some (a, b, c, d) /\ In node [a; b; c; d]) <-> (node <= 3 * n)%nat.
Proof. exact pC56_spare_nodes. Qed.
Print Assumptions C56_spare_nodes.

(** With the default (zero) strain the template always delivers. *)
Theorem C56_succeeds : forall x rots r n cell sg cif, r <> 0 -> (1 <= n)%nat -> List.length (rots n) = n ->
  exists p, powder_sample x rots r n cell sg (One mzero) cif = Ok p.
Proof. exact pC56_succeeds. Qed.
Print Assumptions C56_succeeds.

Example C56_powder_nonvacuous : exists p, powder_sample (ex_xtal []) (fun n => repeat mI n) 1 6 [] "" (One mzero) None = Ok p.
Proof. exact xC56_powder. Qed.

