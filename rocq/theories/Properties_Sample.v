(** Generated by tools/gen_properties.py from PSample.v: the property theorems,
    verbatim, each closed by [exact]. Contains nothing else. *)
From Verif Require Import Vec Spec MMotion MLaue MMesh SMesh MStrain MBeam SBeam MPolycrystal SPolycrystal MDetector SDetector MClip SClip.
From Verif Require Import MRender SRender SMacro PLaue PBeam PScattering PPolycrystal3 PDetector PDetector2 PDetector3 PDetector4 PClip PRender PRender2 PRender2b PRenderEx PRender3 PKernel2 PKernel3 PMacro PMacroEx.
From Verif Require Import PSample.
Open Scope R_scope.

(** A point of the lit part that projects onto a complete pixel of the detector is
    credited to that pixel. *)
Theorem C71_samples_land_in_their_pixel : forall z d vs k q zd yd a i j r0 r1 c0 c1, built d -> 0 < d_pz d -> 0 < d_py d ->
  k <> vzero -> dot k (plane_normal (d_c0 d) (d_c1 d) (d_c2 d)) <> 0 ->
  (forall v, In v vs -> exists x y a', get_intersection z d (nfin k) (nfin v) = (Fin x, Fin y, a')) ->
  in_hull vs q -> get_intersection z d (nfin k) (nfin q) = (Fin zd, Fin yd, a) ->
  projected_box z d vs k = Some (r0, r1, c0, c1) ->
  (0 <= i)%Z -> (0 <= j)%Z -> IZR i * d_pz d <= zd < (IZR i + 1) * d_pz d -> IZR j * d_py d <= yd < (IZR j + 1) * d_py d ->
  (IZR i + 1) * d_pz d <= d_zmax d -> (IZR j + 1) * d_py d <= d_ymax d ->
  in_box r0 r1 c0 c1 i j /\
  sample_cell z d (vdiv k (norm k)) r0 c0 (Z.to_nat (r1 - r0)) (Z.to_nat (c1 - c0)) q = Ok (Z.to_nat (i - r0), Z.to_nat (j - c0)).
Proof. exact pC71_samples_land_in_their_pixel. Qed.
Print Assumptions C71_samples_land_in_their_pixel.

(** A lit part that sticks out of the detector: with a box of two to four pixels, one
    sample point beyond the last pixel is enough to make rendering raise IndexError. *)
Theorem C71_border_crash_refuted : exists d pd vs eqs, built d /\ fresh pd /\
  forall e hl, re_hull e vs WholeBody = Ok hl -> hl = Hull vs eqs 2 ->
  (forall q, In q (re_sample e 0 hl 14) -> in_hull vs q) -> (exists q, In q (re_sample e 0 hl 14) /\ 24 < vz q) ->
  render e d pd 1 "macro" None 1 = Err IndexError.
Proof. exact pC71_border_crash_refuted. Qed.
Print Assumptions C71_border_crash_refuted.

(** Below the first row the index is negative: it wraps to the other end of the box, so
    material projecting outside the detector is credited to an unrelated pixel. *)
Theorem C71_wraps_around_refuted : exists d vs q r0 r1 c0 c1 a, built d /\ in_hull vs q /\
  projected_box false d vs (V3 1 0 0) = Some (r0, r1, c0, c1) /\ (1 < (r1 - r0) * (c1 - c0) <= 4)%Z /\
  get_intersection false d (nfin (V3 1 0 0)) (nfin q) = (Fin (-3), Fin 5, a) /\
  sample_cell false d (V3 1 0 0) r0 c0 (Z.to_nat (r1 - r0)) (Z.to_nat (c1 - c0)) q = Ok (1%nat, 0%nat).
Proof. exact pC71_wraps_around_refuted. Qed.
Print Assumptions C71_wraps_around_refuted.

(** The hypotheses of the positive statement are met. *)
Example C71_inside_nonvacuous : exists d vs q i j r0 r1 c0 c1 a, built d /\ in_hull vs q /\
  projected_box false d vs (V3 1 0 0) = Some (r0, r1, c0, c1) /\ get_intersection false d (nfin (V3 1 0 0)) (nfin q) = (Fin 13, Fin 14, a) /\
  (forall v, In v vs -> exists x y a', get_intersection false d (nfin (V3 1 0 0)) (nfin v) = (Fin x, Fin y, a')) /\
  dot (V3 1 0 0) (plane_normal (d_c0 d) (d_c1 d) (d_c2 d)) <> 0 /\
  IZR i * d_pz d <= 13 < (IZR i + 1) * d_pz d /\ IZR j * d_py d <= 14 < (IZR j + 1) * d_py d /\ (IZR i + 1) * d_pz d <= d_zmax d /\ (IZR j + 1) * d_py d <= d_ymax d.
Proof. exact xC71_inside. Qed.

