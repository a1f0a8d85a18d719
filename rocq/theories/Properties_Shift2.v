(** Generated by tools/gen_properties.py from PShift2.v: the property theorems,
    verbatim, each closed by [exact]. Contains nothing else. *)
From Verif Require Import Vec Spec MMotion MLaue MMesh MScattering MStrain MBeam SBeam MPolycrystal SPolycrystal MDetector MClip MRender SRender SFrame SAperture.
From Verif Require Import PMotion PLaue PMesh PBeam PStrain PPolycrystal PPolycrystal2 PPolycrystal3 PDetector PDetector2 PEvents PJoin PJoin2 PFrame PFrame2 PFrame3 PFrame4 PAperture PPass2 PShift.
From Verif Require Import SShift SDetector.
From Verif Require Import PShift2.
Open Scope list_scope. Open Scope R_scope.

(** C104. On any detector, a spot whose displaced source is in the (second) beam and still hits the detector is found in the second
    projected table: everything but the source point, the number and the place on the detector is the same (incident angle, frame
    and intensity factor included), and the place is shifted by the displacement seen along the diffracted ray. *)
Theorem C104_spots : forall z z' x v p p2 b b2 m m2 w lo hi pd pd2 d frames out out2 r t k src q,
  moved_sample mI v p p2 -> same_xrays b b2 -> same_turning m m2 -> displacement m m2 v w ->
  fst (diffract z x p b m lo hi None) = Ok pd -> fst (diffract z x p2 b2 m2 lo hi None) = Ok pd2 ->
  built d -> rectangular (d_c0 d) (d_c1 d) (d_c2 d) ->
  project z' d pd frames = Ok out -> project z' d pd2 frames = Ok out2 ->
  In r (pd_peaks out) -> has out r "diffraction_times" t -> has_vec out r "K_out_x" "K_out_y" "K_out_z" k -> source_of out r src ->
  strictly_inside (b_halfspaces b2) (vadd src (w t)) -> hits (d_c0 d) (d_c1 d) (d_c2 d) (vadd src (w t)) k q ->
  exists r2, In r2 (pd_peaks out2) /\
    (forall c, ~ In c ("zd" :: "yd" :: place_columns)%string -> field out2 r2 c = field out r c) /\
    source_of out2 r2 (vadd src (w t)) /\
    forall zd yd sz sy, has out r "zd" zd -> has out r "yd" yd -> seen_as d k (w t) sz sy -> has out2 r2 "zd" (zd + sz) /\ has out2 r2 "yd" (yd + sy).
Proof. exact pC104_spots. Qed.
Print Assumptions C104_spots.

