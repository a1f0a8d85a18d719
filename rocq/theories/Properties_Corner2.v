(** Generated by tools/gen_properties.py from PCorner2.v: the property theorems,
    verbatim, each closed by [exact]. Contains nothing else. *)
From Verif Require Import Vec Spec MMotion MLaue MMesh MScattering MStrain MBeam SBeam MPolycrystal SPolycrystal MDetector MClip MRender SRender SWindow.
From Verif Require Import PMotion PLaue PMesh PBeam PStrain PPolycrystal PPolycrystal2 PDetector PDetector2 PDetector3 PDetector4 PRender PRender2 PRender3 PKernel3 PEvents PEnd2 PJoin2 PFrame PFrame2 PFrame3 PFrame4 PWindow PWindow2 PWindow3 PCorner.
From Verif Require Import SCorner SDetector.
From Verif Require Import PCorner2.
Open Scope list_scope. Open Scope R_scope.

(** C105. The 'micro' picture on the transposed detector is the transposed picture, exactly. *)
Theorem C105_transposed_micro : forall d d2 e z x p b m lo hi det pd frames ml mi im out, transposed d d2 -> reachable_pc x p ->
  fst (diffract z x p b m lo hi det) = Ok pd -> render e d pd frames "micro" ml mi = Ok (im, out) ->
  exists im2 out2, render e d2 pd frames "micro" ml mi = Ok (im2, out2) /\ transposed_image im im2.
Proof. exact pC105_transposed_micro. Qed.
Print Assumptions C105_transposed_micro.

(** C105. Listing the corners from the other end of the z edge, on a panel of H whole pixels along z: pixel row i becomes pixel row
    H - i (H even, or no spot exactly halfway between pixel rows). *)
Theorem C105_turned_micro : forall d d2 e z x p b m lo hi det pd frames ml mi im out im2 out2 H, turned_over d d2 -> reachable_pc x p ->
  fst (diffract z x p b m lo hi det) = Ok pd -> render e d pd frames "micro" ml mi = Ok (im, out) -> render e d2 pd frames "micro" ml mi = Ok (im2, out2) ->
  d_zmax d = IZR H * d_pz d -> (Z.even H = true \/ forall r, In r (pd_peaks out) -> ~ halfway (read out r "zd" / d_pz d)) ->
  (f_n im2 = f_n im /\ f_h im2 = f_h im /\ f_w im2 = f_w im) /\
  forall f i i2 j, in_image im f i j -> in_image im2 f i2 j -> (Z.of_nat i + Z.of_nat i2 = H)%Z -> f_at im2 f i2 j = f_at im f i j.
Proof. exact pC105_turned_micro. Qed.
Print Assumptions C105_turned_micro.

(** C105. So the picture is not the flipped one (row i for row H - 1 - i): it would have to be constant along z. *)
Theorem C105_not_the_flip : forall d d2 e z x p b m lo hi det pd frames ml mi im out im2 out2 H, turned_over d d2 -> reachable_pc x p ->
  fst (diffract z x p b m lo hi det) = Ok pd -> render e d pd frames "micro" ml mi = Ok (im, out) -> render e d2 pd frames "micro" ml mi = Ok (im2, out2) ->
  d_zmax d = IZR H * d_pz d -> (Z.even H = true \/ forall r, In r (pd_peaks out) -> ~ halfway (read out r "zd" / d_pz d)) ->
  (forall f i i2 j, in_image im f i j -> in_image im2 f i2 j -> (Z.of_nat i + Z.of_nat i2 = H - 1)%Z -> f_at im2 f i2 j = f_at im f i j) ->
  forall f i j, in_image im f i j -> in_image im f (S i) j -> f_at im f (S i) j = f_at im f i j.
Proof. exact pC105_not_the_flip. Qed.
Print Assumptions C105_not_the_flip.

