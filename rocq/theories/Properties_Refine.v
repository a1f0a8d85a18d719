(** Generated by tools/gen_properties.py from PRefine.v: the property theorems,
    verbatim, each closed by [exact]. Contains nothing else. *)
From Verif Require Import Vec Spec MMotion PMotion MLaue PLaue MMesh SMesh PMesh MScattering SScattering PScattering.
From Verif Require Import MStrain SStrain PStrain MBeam SBeam PBeam MPolycrystal SPolycrystal SEvents PPolycrystal PPolycrystal2 PPolycrystal3 PEvents.
From Verif Require Import MDetector SDetector MRender SRender SEnd PEnd PEnd2 SJoin PJoin PJoin2 SNumber PNumber PNumber2 PNano6 SRefine.
From Coq Require Import Permutation.
From Verif Require Import PRefine.
Open Scope list_scope. Open Scope R_scope.

(** C106. Cutting the elements of a sample into smaller ones changes none of the totals: with the sample in the beam throughout,
    the sum over the reflections of volume times any quantity that does not depend on the element (structure factor, Lorentz and
    polarization factors, the frame, the plane, the direction ...) is the same for the coarse and for the fine mesh. *)
Theorem C106_conserved : forall z x f p q b m lo hi pd p', reachable_pc x p -> reachable_pc x q -> refines f p q ->
  always_lit p b m -> always_lit q b m -> diffract z x p b m lo hi None = (Ok pd, p') ->
  exists pd' q', diffract z x q b m lo hi None = (Ok pd', q') /\
    forall w, element_blind w -> volume_sum pd' w = volume_sum pd w.
Proof. exact pC106_conserved. Qed.
Print Assumptions C106_conserved.

(** ... every reflection of an element is reported for each of its parts whose centre is in the beam at that time, with the
    volume of the part; *)
Theorem C106_each_part : forall z x f p q b m lo hi pd p' pd' q' r e t e' s, reachable_pc x p -> reachable_pc x q -> refines f p q ->
  diffract z x p b m lo hi None = (Ok pd, p') -> diffract z x q b m lo hi None = (Ok pd', q') ->
  In r (pd_peaks pd) -> has pd r "grain_index" (INR e) -> has pd r "diffraction_times" t ->
  (e' < List.length (pc_volumes q))%nat -> f e' = e -> lit_at q b m e' t s ->
  exists r', In r' (pd_peaks pd') /\ same_reflection pd pd' r r' /\ has pd' r' "grain_index" (INR e') /\
    has_vec pd' r' "Source_x" "Source_y" "Source_z" s /\ row_volume pd' r' = nth e' (pc_volumes q) 0.
Proof. exact pC106_each_part. Qed.
Print Assumptions C106_each_part.

(** ... and every reflection of the fine mesh belongs to one of the coarse mesh, of the parent element, unless the centre of
    the parent is outside the beam at that time. *)
Theorem C106_each_parent : forall z x f p q b m lo hi pd p' pd' q' r' e' t s, reachable_pc x p -> reachable_pc x q -> refines f p q ->
  diffract z x p b m lo hi None = (Ok pd, p') -> diffract z x q b m lo hi None = (Ok pd', q') ->
  In r' (pd_peaks pd') -> has pd' r' "grain_index" (INR e') -> has pd' r' "diffraction_times" t -> lit_at p b m (f e') t s ->
  exists r, In r (pd_peaks pd) /\ same_reflection pd pd' r r' /\ has pd r "grain_index" (INR (f e')) /\
    row_volume pd r = nth (f e') (pc_volumes p) 0.
Proof. exact pC106_each_parent. Qed.
Print Assumptions C106_each_parent.

(** ... but the peak widths are those of the mesh, not of the grains: a part, being smaller than its parent, gets a broader peak. *)
Theorem C106_broader : forall z x p q b m lo hi pd p' pd' q' r r' v v' tth w w',
  diffract z x p b m lo hi None = (Ok pd, p') -> diffract z x q b m lo hi None = (Ok pd', q') ->
  In r (pd_peaks pd) -> In r' (pd_peaks pd') -> same_reflection pd pd' r r' ->
  has pd r "volumes" v -> has pd' r' "volumes" v' -> 0 < v' < v -> has pd r "2theta" tth -> 0 <= tth < PI -> 0 < b_wavelength b ->
  has pd r "scherrer_fwhm" w -> has pd' r' "scherrer_fwhm" w' -> w < w'.
Proof. exact pC106_broader. Qed.
Print Assumptions C106_broader.

(** ... eight parts of one eighth each double the width. *)
Theorem C106_twice : forall z x p q b m lo hi pd p' pd' q' r r' v tth w,
  diffract z x p b m lo hi None = (Ok pd, p') -> diffract z x q b m lo hi None = (Ok pd', q') ->
  In r (pd_peaks pd) -> In r' (pd_peaks pd') -> same_reflection pd pd' r r' ->
  has pd r "volumes" (8 * v) -> has pd' r' "volumes" v -> 0 < v -> has pd r "2theta" tth -> 0 <= tth < PI ->
  has pd r "scherrer_fwhm" w -> has pd' r' "scherrer_fwhm" (2 * w).
Proof. exact pC106_twice. Qed.
Print Assumptions C106_twice.

(** The volumes add up: a tetrahedron cut at any point of it (a point inside, on a face or on an edge) into the tetrahedra that
    have the point in place of one of the vertices; parts without volume may be left out. *)
Theorem C106_cut : forall A B C D a b c d, 0 <= a -> 0 <= b -> 0 <= c -> 0 <= d -> a + b + c + d = 1 ->
  let P := vadd (vadd (vadd (vscale a A) (vscale b B)) (vscale c C)) (vscale d D) in
  let V := tet_volume (Tet A B C D) in
  tet_volume (Tet P B C D) = a * V /\ tet_volume (Tet A P C D) = b * V /\ tet_volume (Tet A B P D) = c * V /\ tet_volume (Tet A B C P) = d * V.
Proof. exact pC106_cut. Qed.
Print Assumptions C106_cut.

