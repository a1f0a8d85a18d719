(** * Specification vocabulary: the same sample with a finer mesh (C106). *)
From Verif Require Import Vec Spec MMotion MLaue MMesh MScattering MStrain MBeam SBeam MPolycrystal SPolycrystal SEnd.
Open Scope list_scope. Open Scope R_scope.

(** The elements, among the first [n], whose parent is [e]. *)
Definition parts (f : nat -> nat) (n e : nat) : list nat := filter (fun e' => Nat.eqb (f e') e) (seq 0 n).
(** Every entry of [l'] is that of its parent in [l]. *)
Definition inherits {A} (f : nat -> nat) (l l' : list A) : Prop :=
  forall e', (e' < List.length l')%nat -> nth_error l' e' = nth_error l (f e').
(** [q] is the sample [p] with every element cut into one or more parts whose volumes add up; [f] gives the parent
    of an element of [q]; a part has the orientation, the strained lattice and the phase of its parent. *)
Definition refines (f : nat -> nat) (p q : polycrystal) : Prop :=
  (forall e', (e' < List.length (pc_volumes q))%nat -> (f e' < List.length (pc_volumes p))%nat) /\
  (forall e, (e < List.length (pc_volumes p))%nat -> parts f (List.length (pc_volumes q)) e <> [] /\
     nth e (pc_volumes p) 0 = sum_list (map (fun e' => nth e' (pc_volumes q) 0) (parts f (List.length (pc_volumes q)) e))) /\
  inherits f (pc_U p) (pc_U q) /\ inherits f (pc_eB p) (pc_eB q) /\
  pc_phases q = pc_phases p /\
  exists l l', pc_map p = MapTensor l /\ pc_map q = MapTensor l' /\ inherits f l l' /\
    List.length l = List.length (pc_volumes p) /\ List.length l' = List.length (pc_volumes q).
(** The centre of every element is in the beam during the whole motion. *)
Definition always_lit (p : polycrystal) (b : beam) (m : motion) : Prop :=
  forall e t, (e < List.length (pc_volumes p))%nat -> 0 <= t <= 1 -> exists s, lit_at p b m e t s.

(** The columns that depend on the element beyond its orientation, strain and phase, and the running number. *)
Definition element_columns : list string :=
  ["grain_index"; "Source_x"; "Source_y"; "Source_z"; "volumes"; "scherrer_fwhm"; "peak_index"]%string.
(** A quantity of a row that uses the other columns only. *)
Definition element_blind (w : (string -> option num) -> R) : Prop :=
  forall g g', (forall c, ~ In c element_columns -> g c = g' c) -> w g = w g'.
Definition row_volume (pd : peaks_dict) (r : list num) : R :=
  match field pd r "volumes" with Some (Fin v) => v | _ => 0 end.
(** Sum over the rows of the volume times a quantity of the row. *)
Definition volume_sum (pd : peaks_dict) (w : (string -> option num) -> R) : R :=
  sum_list (map (fun r => row_volume pd r * w (field pd r)) (pd_peaks pd)).
(** Row [r'] of [pd'] shows the same reflection as row [r] of [pd]: it has the same values in all the other columns. *)
Definition same_reflection (pd pd' : peaks_dict) (r r' : list num) : Prop :=
  forall c, ~ In c element_columns -> field pd' r' c = field pd r c.
(** Volume of element number [e] of the mesh with vertices [c] and elements [en]. *)
Definition element_volume (c : list vec) (en : list (nat * nat * nat * nat)) (e : nat) : R :=
  match nth_error en e with
  | Some (i, j, k, l) => tet_volume (Tet (nth i c vzero) (nth j c vzero) (nth k c vzero) (nth l c vzero))
  | None => 0
  end.
(** The elements [en'] are the elements [en] cut into parts whose volumes add up. *)
Definition cuts (f : nat -> nat) (c c' : list vec) (en en' : list (nat * nat * nat * nat)) : Prop :=
  (forall e', (e' < List.length en')%nat -> (f e' < List.length en)%nat) /\
  forall e, (e < List.length en)%nat -> parts f (List.length en') e <> [] /\
    element_volume c en e = sum_list (map (element_volume c' en') (parts f (List.length en') e)).
