(** Generated by tools/gen_properties.py from PWindow3.v: the property theorems,
    verbatim, each closed by [exact]. Contains nothing else. *)
From Verif Require Import Vec Spec MMotion MLaue MMesh MScattering MStrain MBeam SBeam MPolycrystal SPolycrystal MDetector MClip MRender SRender SWindow.
From Verif Require Import PMotion PLaue PMesh PBeam PStrain PPolycrystal PPolycrystal2 PDetector PDetector2 PDetector3 PRender PRender2 PRender3 PEvents PEnd2 PJoin2 PFrame PFrame2 PFrame3 PFrame4 PWindow PWindow2.
From Verif Require Import SDetector.
From Verif Require Import PWindow3.
Open Scope list_scope. Open Scope R_scope.

(** C96. The pictures on both detectors: pixel by pixel they differ only by the light of the spots that are centred on one panel and
    not on the other. *)
Theorem C96_picture : forall n k d d2 e z x p b m lo hi det pd frames ml mi im out im2 out2, same_grid n k d d2 -> reachable_pc x p ->
  fst (diffract z x p b m lo hi det) = Ok pd -> render e d pd frames "micro" ml mi = Ok (im, out) -> render e d2 pd frames "micro" ml mi = Ok (im2, out2) ->
  no_ties n k d out ->
  exists both both2,
    (forall r, In r (pd_peaks out) -> (both r = true <-> also_on n k d d2 out r)) /\
    (forall r, In r (pd_peaks out2) -> (both2 r = true <-> also_on (- n) (- k) d2 d out2 r)) /\
    forall f i j i2 j2, in_image im f i j -> in_image im2 f i2 j2 -> (Z.of_nat i = Z.of_nat i2 + n)%Z -> (Z.of_nat j = Z.of_nat j2 + k)%Z ->
    exists v v2, f_at im f i j = Fin v /\ f_at im2 f i2 j2 = Fin v2 /\
      v - sum_list (map (fun r => micro_spot d out r (Z.of_nat i) (Z.of_nat j)) (filter (fun r => negb (both r)) (rows_in_frame out f))) =
      v2 - sum_list (map (fun r => micro_spot d2 out2 r (Z.of_nat i2) (Z.of_nat j2)) (filter (fun r => negb (both2 r)) (rows_in_frame out2 f))).
Proof. exact pC96_picture. Qed.
Print Assumptions C96_picture.

(** C96. Pixels that are farther than a spot radius from the edges of both panels have the same value. *)
Theorem C96_interior : forall n k d d2 e z x p b m lo hi det pd frames ml mi im out im2 out2, same_grid n k d d2 -> reachable_pc x p ->
  fst (diffract z x p b m lo hi det) = Ok pd -> render e d pd frames "micro" ml mi = Ok (im, out) -> render e d2 pd frames "micro" ml mi = Ok (im2, out2) ->
  no_ties n k d out ->
  forall f i j i2 j2, in_image im f i j -> in_image im2 f i2 j2 -> (Z.of_nat i = Z.of_nat i2 + n)%Z -> (Z.of_nat j = Z.of_nat j2 + k)%Z ->
    well_inside d i j -> well_inside d2 i2 j2 -> f_at im2 f i2 j2 = f_at im f i j.
Proof. exact pC96_interior. Qed.
Print Assumptions C96_interior.

(** C96. A part of a panel never shows more light than the panel: what is missing are the spots centred outside of the part. *)
Theorem C96_part_of_panel : forall n k d d2 e z x p b m lo hi det pd frames ml mi im out im2 out2, same_grid n k d d2 -> part_of n k d d2 -> reachable_pc x p ->
  fst (diffract z x p b m lo hi det) = Ok pd -> render e d pd frames "micro" ml mi = Ok (im, out) -> render e d2 pd frames "micro" ml mi = Ok (im2, out2) ->
  no_ties n k d out ->
  exists off, (forall r, In r (pd_peaks out) -> (off r = true <-> ~ also_on n k d d2 out r)) /\
    forall f i j i2 j2, in_image im f i j -> in_image im2 f i2 j2 -> (Z.of_nat i = Z.of_nat i2 + n)%Z -> (Z.of_nat j = Z.of_nat j2 + k)%Z ->
    exists v v2, f_at im f i j = Fin v /\ f_at im2 f i2 j2 = Fin v2 /\ v2 <= v /\
      v = v2 + sum_list (map (fun r => micro_spot d out r (Z.of_nat i) (Z.of_nat j)) (filter off (rows_in_frame out f))).
Proof. exact pC96_part_of_panel. Qed.
Print Assumptions C96_part_of_panel.

