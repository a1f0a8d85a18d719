(** * Specification vocabulary: a full turn of the sample taken in several scans (C108). *)
From Verif Require Import Vec Spec MMotion MMesh MStrain MBeam SBeam MPolycrystal SPolycrystal.
Open Scope list_scope. Open Scope R_scope.

(** The sample after [j] steps of the motion: transform(motion, 1), [j] times. *)
Definition turned (m : motion) (j : nat) (p : polycrystal) : polycrystal := transforms (repeat (m, 1) j) p.
(** The table has a row of element [e] (phase [i]), plane [h], at time [t]. *)
Definition shows (d : peaks_dict) (e i : nat) (h : vec) (t : R) : Prop :=
  exists row, In row (pd_peaks d) /\ has d row "grain_index" (INR e) /\ has d row "phase_number" (INR i) /\
    has_vec d row "h" "k" "l" h /\ has d row "diffraction_times" t.
(** How far along the axis the circle described by [G] would have to reach to touch the Ewald sphere, against the
    product of the distances of [k] and [G] from the axis [a]: smaller, the circle crosses the sphere; larger,
    it never meets it (the reflection lies in the blind region of the axis). *)
Definition crosses (k a G : vec) : Prop :=
  (dot k a * dot G a + normsq G / 2) ^ 2 < normsq (cross a k) * normsq (cross a G).
Definition misses (k a G : vec) : Prop :=
  normsq (cross a k) * normsq (cross a G) < (dot k a * dot G a + normsq G / 2) ^ 2.
(** The reflection does not fall exactly on the start of one of the [n] steps of angle [w], nor half a turn from it. *)
Definition clear_of_steps (k a : vec) (w : R) (n : nat) (G : vec) : Prop :=
  forall j, (j < n)%nat -> ~ laue_condition k (right_handed_rotation a (w * INR j) G) /\
                           ~ laue_condition k (right_handed_rotation a (w * INR j + PI) G).
