(** Generated by tools/gen_properties.py from PAperture2.v: the property theorems,
    verbatim, each closed by [exact]. Contains nothing else. *)
From Coq Require Import Permutation.
From Verif Require Import Vec Spec MMotion MLaue MMesh MScattering MStrain MBeam SBeam MPolycrystal SPolycrystal MDetector MClip MRender SRender SEnd SAperture.
From Verif Require Import PMotion PLaue PMesh PBeam PStrain PPolycrystal PPolycrystal2 PPolycrystal3 PDetector PDetector2 PDetector3 PRender PRender2 PRender3 PEvents PEnd PEnd2 PJoin PJoin2 PJoin3 PFrame4 PNumber4 PAperture.
From Verif Require Import SDetector.
From Verif Require Import PAperture2.
Open Scope list_scope. Open Scope R_scope.

(** C95. Cutting the beam in two by a plane: each row of the table is in exactly one of the two halves' tables, unless its source point
    lies exactly on the plane, when it is in neither. *)
Theorem C95_cut_count : forall z x p b h m lo hi pd pd1 pd2,
  fst (diffract z x p b m lo hi None) = Ok pd -> fst (diffract z x p (cut h b) m lo hi None) = Ok pd1 ->
  fst (diffract z x p (cut (other_side h) b) m lo hi None) = Ok pd2 ->
  exists onp, (forall r, In r (pd_peaks pd) -> (onp r = true <-> exists s, source_of pd r s /\ on_boundary_of h s)) /\
    List.length (pd_peaks pd) = (List.length (pd_peaks pd1) + List.length (pd_peaks pd2) + List.length (filter onp (pd_peaks pd)))%nat.
Proof. exact pC95_cut_count. Qed.
Print Assumptions C95_cut_count.

(** C95. With the 'micro' method, a narrower beam never makes any pixel brighter. *)
Theorem C95_picture_monotone : forall e z x p b b2 m lo hi pd pd2 d frames ml mi im out im2 out2,
  reachable_pc x p -> narrower b2 b ->
  fst (diffract z x p b m lo hi None) = Ok pd -> fst (diffract z x p b2 m lo hi None) = Ok pd2 ->
  render e d pd frames "micro" ml mi = Ok (im, out) -> render e d pd2 frames "micro" ml mi = Ok (im2, out2) ->
  has_shape im2 (f_n im) (f_h im) (f_w im) /\
  forall f i j, in_image im f i j -> exists v v2, f_at im f i j = Fin v /\ f_at im2 f i j = Fin v2 /\ v2 <= v.
Proof. exact pC95_picture_monotone. Qed.
Print Assumptions C95_picture_monotone.

(** C95. If every row of the table has its source in exactly one of two narrower beams, the 'micro' picture is the pixel-wise sum of the
    pictures taken with the two narrower beams. *)
Theorem C95_picture_split : forall e z x p b b1 b2 m lo hi pd pd1 pd2 d frames ml mi im out im1 out1 im2 out2,
  reachable_pc x p -> narrower b1 b -> narrower b2 b ->
  fst (diffract z x p b m lo hi None) = Ok pd -> fst (diffract z x p b1 m lo hi None) = Ok pd1 -> fst (diffract z x p b2 m lo hi None) = Ok pd2 ->
  (forall r, In r (pd_peaks pd) -> (source_in pd b1 r /\ ~ source_in pd b2 r) \/ (source_in pd b2 r /\ ~ source_in pd b1 r)) ->
  render e d pd frames "micro" ml mi = Ok (im, out) -> render e d pd1 frames "micro" ml mi = Ok (im1, out1) -> render e d pd2 frames "micro" ml mi = Ok (im2, out2) ->
  same_image im (add3 im1 im2).
Proof. exact pC95_picture_split. Qed.
Print Assumptions C95_picture_split.

(** C95. Changing the region of a beam through set_beam_vertices leaves its X-rays alone. *)
Theorem C95_new_vertices : forall q b vs b2, set_beam_vertices q b vs = Ok b2 -> same_xrays b b2.
Proof. exact pC95_new_vertices. Qed.
Print Assumptions C95_new_vertices.

(** C95. So two half-beams that share a face lose the rows whose source lies on that face: the sum of their tables can be short. *)
Theorem C95_cut_in_two_refuted : exists z x p b h m lo hi pd pd1 pd2, reachable_pc x p /\
  fst (diffract z x p b m lo hi None) = Ok pd /\ fst (diffract z x p (cut h b) m lo hi None) = Ok pd1 /\
  fst (diffract z x p (cut (other_side h) b) m lo hi None) = Ok pd2 /\
  (List.length (pd_peaks pd1) + List.length (pd_peaks pd2) < List.length (pd_peaks pd))%nat.
Proof. exact pC95_cut_in_two_refuted. Qed.
Print Assumptions C95_cut_in_two_refuted.

(** A beam cut by a plane above all sources of the table, and the rest of the beam: non-empty table, pictures of all three. *)
Example C95_cut_beam_nonvacuous : exists e z x p b h m lo hi pd pd1 pd2 d im out im1 out1 im2 out2,
  reachable_pc x p /\ narrower (cut h b) b /\ narrower (cut (other_side h) b) b /\ pd_peaks pd <> [] /\
  fst (diffract z x p b m lo hi None) = Ok pd /\ fst (diffract z x p (cut h b) m lo hi None) = Ok pd1 /\
  fst (diffract z x p (cut (other_side h) b) m lo hi None) = Ok pd2 /\
  (forall r, In r (pd_peaks pd) -> (source_in pd (cut h b) r /\ ~ source_in pd (cut (other_side h) b) r) \/ (source_in pd (cut (other_side h) b) r /\ ~ source_in pd (cut h b) r)) /\
  render e d pd 1 "micro" None 1 = Ok (im, out) /\ render e d pd1 1 "micro" None 1 = Ok (im1, out1) /\ render e d pd2 1 "micro" None 1 = Ok (im2, out2).
Proof. exact xC95_cut_beam. Qed.

