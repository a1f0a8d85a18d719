(** Generated by tools/gen_properties.py from PFriedel2.v: the property theorems,
    verbatim, each closed by [exact]. Contains nothing else. *)
From Verif Require Import Vec Spec MMotion MLaue MMesh MScattering MStrain MBeam SBeam MPolycrystal SPolycrystal SEvents SFriedel.
From Verif Require Import PMotion PLaue PMesh PBeam PStrain PPolycrystal PPolycrystal2 PPolycrystal3 PEvents PScan PFriedel.
From Verif Require Import SPolycrystal.
From Verif Require Import PFriedel2.
Open Scope list_scope. Open Scope R_scope.

(** A two-plane sample turned by two quarter turns: both tables hold peaks, and the second one has all four opposite planes. *)
Example C99_pair_nonvacuous : exists q b a w T o m moves x p d p1 d2 p2 r r2, reachable_beam q b /\ reachable_pc x p /\ xtal_ok x /\
  make_motion a w T o = Ok m /\ unit a /\ dot a (b_wave_vector b) = 0 /\ half_turn_about a moves /\ (2 <= List.length moves)%nat /\
  diffract false x p b m 0 1 None = (Ok d, p1) /\ diffract false x (transforms moves p) b m 0 1 None = (Ok d2, p2) /\
  In r (pd_peaks d) /\ In r2 (pd_peaks d2) /\ friedel_mate a d d2 r r2 /\ dot a (V3 0 0 1) = 1 /\
  has_vec d r "K_out_x" "K_out_y" "K_out_z" (V3 0 0 1) /\ has_vec d2 r2 "K_out_x" "K_out_y" "K_out_z" (V3 0 0 (-1)).
Proof. exact xC99_pair. Qed.

