(** Generated by tools/gen_properties.py from PRender2b.v: the property theorems,
    verbatim, each closed by [exact]. Contains nothing else. *)
From Verif Require Import Vec Spec MMotion MLaue MMesh MStrain MBeam MPolycrystal SPolycrystal MDetector SDetector.
From Verif Require Import MRender SRender PLaue PBeam PDetector PDetector2 PDetector3 PDetector4 PRender PRender2 PRenderEx.
From Verif Require Import PRender2b.
Open Scope R_scope.

(** Scaling the structure factors does not scale the image: one peak of strength 1 is
    rendered, the same peak scaled by 1e-6 leaves a blank image. *)
Theorem C40_not_linear_refuted : exists e d pd c im im' out out', built d /\ fresh pd /\ volumes_ok pd /\ 0 < c /\
  render e d pd 1 "micro" None 1 = Ok (im, out) /\ ~ blank im /\
  render e d (scale_structure_factors c pd) 1 "micro" None 1 = Ok (im', out') /\ blank im'.
Proof. exact pC40_not_linear_refuted. Qed.
Print Assumptions C40_not_linear_refuted.

(** A table with a peak in each of two frames. *)
Example C39_two_frames_nonvacuous : exists e d pd im out, built d /\ fresh pd /\ volumes_ok pd /\
  render e d pd 2 "micro" None 1 = Ok (im, out) /\ has_shape im 2 9 9 /\
  List.length (rows_in_frame out 0) = 1%nat /\ List.length (rows_in_frame out 1) = 1%nat.
Proof. exact xC39_two_frames. Qed.

(** Two machines with different free memory use different batch sizes. *)
Example C38_machines_nonvacuous : Z.of_nat (g_batch_size 0) = 50000%Z /\ Z.of_nat (g_batch_size 1000) = 10000%Z /\
  exists e e' : render_env, re_z e = re_z e' /\ re_free_micro e = 0 /\ re_free_micro e' = 1000.
Proof. exact xC38_machines. Qed.

(** Weak peaks exist. *)
Example C40_weak_nonvacuous : exists e d pd im out r, built d /\ fresh pd /\ volumes_ok pd /\
  render e d pd 1 "micro" None 1 = Ok (im, out) /\ In r (pd_peaks out) /\ 0 < strength out r /\
  (forall r, In r (pd_peaks out) -> strength out r <= / 10^6).
Proof. exact xC40_weak. Qed.

