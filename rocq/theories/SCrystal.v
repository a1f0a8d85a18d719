(** * Specification vocabulary: samples that differ only in how their lattices are described (C93). *)
From Verif Require Import Vec Spec MMotion MLaue MMesh MStrain MBeam MPolycrystal SPolycrystal SEvents SEnd.
From Coq Require Import Permutation.
Open Scope R_scope.

(** Plane number [j] of element [e] can diffract: [G] is its scattering vector at rest and [sf] its |F|^2. *)
Definition reflection (p : polycrystal) (e j : nat) (G : vec) (sf : R) : Prop :=
  exists i ph h, in_phase p e i /\ nth_error (pc_phases p) i = Some ph /\ plane_at ph j h /\
    scattering_vector p e h G /\ squared_factor p e j sf.

(** The samples [p] and [q] hold the same crystals: element by element the same volume, the same centre and the same set of
    reflections; what is plane number [j] of element [e] in [p] is plane number [s e j] in [q]. *)
Definition same_crystals (s : nat -> nat -> nat) (p q : polycrystal) : Prop :=
  pc_volumes q = pc_volumes p /\
  me_espherecentroids (pc_mesh_lab q) = me_espherecentroids (pc_mesh_lab p) /\
  (forall e j G sf, reflection p e j G sf -> reflection q e (s e j) G sf) /\
  (forall e j j' G G' sf sf', reflection p e j G sf -> reflection p e j' G' sf' -> s e j = s e j' -> j = j') /\
  (forall e j G sf, reflection q e j G sf -> exists j', j = s e j' /\ reflection p e j' G sf).

(** Row [r'] of table [pd'] reports the same reflection as row [r] of table [pd], possibly under other Miller indices, phase
    number and peak number. *)
Definition redescribed (pd pd' : peaks_dict) (r r' : list num) : Prop :=
  forall c, ~ In c ["phase_number"; "h"; "k"; "l"; "peak_index"]%string -> field pd' r' c = field pd r c.

(** [S] is a symmetry operation of the lattice with (unstrained) reciprocal basis [B], as far as the listed planes can tell: it
    carries plane number [s j] to plane number [j], a one-to-one correspondence of the planes, and keeps |F|^2. *)
Definition lattice_symmetry (s : nat -> nat) (B : mat) (ph : phase) (S : mat) : Prop :=
  exists hkl, ph_hkl ph = Some hkl /\
    Permutation (map s (seq 0 (List.length hkl))) (seq 0 (List.length hkl)) /\
    (forall j h h', nth_error hkl j = Some h -> nth_error hkl (s j) = Some h' -> mv S (mv B h') = mv B h) /\
    match ph_sf ph with
    | None => True
    | Some f => forall j re im re' im', nth_error f j = Some (re, im) -> nth_error f (s j) = Some (re', im') ->
        re'^2 + im'^2 = re^2 + im^2
    end.
