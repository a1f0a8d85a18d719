(** Generated by tools/gen_properties.py from PEvents.v: the property theorems,
    verbatim, each closed by [exact]. Contains nothing else. *)
From Verif Require Import Vec Spec MMotion PMotion MLaue PLaue MMesh SMesh PMesh MScattering SScattering PScattering.
From Verif Require Import MStrain SStrain PStrain MBeam SBeam PBeam MPolycrystal SPolycrystal SEvents PPolycrystal PPolycrystal2 PPolycrystal3.
From Verif Require Import PEvents.
Open Scope R_scope.

(** C13 without the solver: a call that no reflection answers returns an empty table; two or
    more events give a table; a single event makes it raise IndexError, unless it is grazing. *)
Theorem C13_events : forall z x p b a w T o m lo hi det l,
  reachable_pc x p -> xtal_ok x -> pc_map p = MapTensor l -> limits_ok p b lo det ->
  make_motion a w T o = Ok m -> unit a ->
  let '(r, p') := diffract z x p b m lo hi det in
  ((forall e j t G, ~ diffracts_at p' b a m e j t G) -> exists d, r = Ok d /\ pd_peaks d = []) /\
  (forall e j t G e' j' t' G', diffracts_at p' b a m e j t G -> diffracts_at p' b a m e' j' t' G' -> (e, j, t) <> (e', j', t') -> exists d, r = Ok d) /\
  (forall e j t G, diffracts_at p' b a m e j t G -> (forall e' j' t' G', diffracts_at p' b a m e' j' t' G' -> (e', j', t') = (e, j, t)) ->
     (grazing (b_wave_vector b) a G -> exists d, r = Ok d) /\ (~ grazing (b_wave_vector b) a G -> r = Err IndexError)).
Proof. exact pC13_events. Qed.
Print Assumptions C13_events.

(** A sample with exactly one event, which is not grazing, and one with two. *)
Example C13_events_nonvacuous : exists x p b, reachable_pc x p /\ xtal_ok x /\ pc_map p = MapTensor [0] /\ limits_ok p b 0 None /\
  make_motion (V3 0 0 1) 1 (V3 0 0 1) vzero = Ok ex_motion /\ unit (V3 0 0 1) /\
  let p' := snd (diffract false x p b ex_motion 0 1 None) in
  diffracts_at p' b (V3 0 0 1) ex_motion 0 0 0 (V3 (-1) 1 0) /\ ~ grazing (b_wave_vector b) (V3 0 0 1) (V3 (-1) 1 0) /\
  (forall e j t G, diffracts_at p' b (V3 0 0 1) ex_motion e j t G -> (e, j, t) = (0%nat, 0%nat, 0)).
Proof. exact xC13_events. Qed.

