(** Generated by tools/gen_properties.py from PPass3.v: the property theorems,
    verbatim, each closed by [exact]. Contains nothing else. *)
From Verif Require Import Vec Spec MMotion MLaue MMesh MScattering MStrain MBeam SBeam MPolycrystal SPolycrystal MDetector MRender SRender SPassenger.
From Verif Require Import PMotion PMesh PBeam PBeam2 PPolycrystal PPolycrystal2 PPolycrystal3 PDetector PDetector2 PDetector3 PRender PEvents PJoin2 PPass PPass2.
From Verif Require Import SBeam2 SDetector.
From Coq Require Import String Sorted.
From Verif Require Import PPass3.
Open Scope list_scope. Open Scope R_scope.

Example C97_indices_nonvacuous : exists d pd pd' out r r',
  built d /\ fresh pd /\ fresh pd' /\ same_scene pd pd' /\ agree_on (picture_column d) pd pd' /\
  In r (pd_peaks pd) /\ In r' (pd_peaks pd') /\ field pd r "h" <> field pd' r' "h" /\
  project false d pd 3 = Ok out /\ pd_peaks out <> [].
Proof. exact xC97_indices. Qed.

(** Lengths of the propagation and polarization vectors do not matter. *)
Theorem C98_lengths : forall q vs dir w pol c c', 0 < c -> 0 < c' ->
  make_beam q vs (vscale c dir) w (vscale c' pol) = make_beam q vs dir w pol.
Proof. exact pC98_lengths. Qed.
Print Assumptions C98_lengths.

(** Reversing the polarization vector reverses the stored one and nothing else. *)
Theorem C98_reversed : forall q vs dir w pol,
  make_beam q vs dir w (vneg pol) =
  match make_beam q vs dir w pol with Ok b => Ok (repolarized b (vneg (b_polarization b))) | Err x => Err x end.
Proof. exact pC98_reversed. Qed.
Print Assumptions C98_reversed.

Theorem C98_hull_order : forall q q' vs dir w pol, same_planes q q' vs ->
  make_beam q vs dir w pol = make_beam q' vs dir w pol.
Proof. exact pC98_hull_order. Qed.
Print Assumptions C98_hull_order.

(** Beams that differ in their polarization vector: same failures, same change of the polycrystal, and tables that
    differ at most in the column of polarization factors. *)
Theorem C98_polarization_column : forall z x p b pol m lo hi det,
  snd (diffract z x p b m lo hi det) = snd (diffract z x p (repolarized b pol) m lo hi det) /\
  match fst (diffract z x p b m lo hi det), fst (diffract z x p (repolarized b pol) m lo hi det) with
  | Ok pd, Ok pd' => same_header pd pd' /\ pd_beam pd = b /\ pd_beam pd' = repolarized b pol /\
      agree_on (fun s => s <> "polarization_factors"%string) pd pd'
  | Err e, Err e' => e = e'
  | _, _ => False
  end.
Proof. exact pC98_polarization_column. Qed.
Print Assumptions C98_polarization_column.

(** Opposite polarization vectors: the same rows. *)
Theorem C98_opposite_rows : forall z x p b m lo hi det pd pd',
  fst (diffract z x p b m lo hi det) = Ok pd ->
  fst (diffract z x p (repolarized b (vneg (b_polarization b))) m lo hi det) = Ok pd' ->
  pd_peaks pd = pd_peaks pd'.
Proof. exact pC98_opposite_rows. Qed.
Print Assumptions C98_opposite_rows.

(** Pictures: a detector that ignores polarization shows the same for every polarization, every detector shows the
    same for opposite ones, whatever the method. *)
Theorem C98_pictures : forall z x p b pol m lo hi det pd pd' e d frames method ml mi,
  fst (diffract z x p b m lo hi det) = Ok pd -> fst (diffract z x p (repolarized b pol) m lo hi det) = Ok pd' ->
  d_polarization d = false \/ pol = vneg (b_polarization b) ->
  match render e d pd frames method ml mi, render e d pd' frames method ml mi with
  | Ok (im, _), Ok (im', _) => im = im'
  | Err x, Err x' => x = x'
  | _, _ => False
  end.
Proof. exact pC98_pictures. Qed.
Print Assumptions C98_pictures.

Example C98_table_nonvacuous : exists x p b m pd pd' row,
  fst (diffract false x p b m 0 1 None) = Ok pd /\ In row (pd_peaks pd) /\
  fst (diffract false x p (repolarized b (V3 0 0 1)) m 0 1 None) = Ok pd' /\ repolarized b (V3 0 0 1) <> repolarized b (V3 0 1 0).
Proof. exact xC98_table. Qed.

Example C98_planes_nonvacuous : exists q q' vs l l', q <> q' /\ same_planes q q' vs /\ qh_eqs_QJ q vs = Ok l /\ qh_eqs_QJ q' vs = Ok l' /\ l <> l' /\ l <> [].
Proof. exact xC98_planes. Qed.

