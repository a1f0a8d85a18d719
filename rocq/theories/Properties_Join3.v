(** Generated by tools/gen_properties.py from PJoin3.v: the property theorems,
    verbatim, each closed by [exact]. Contains nothing else. *)
From Verif Require Import Vec Spec MMotion PMotion MLaue PLaue MMesh SMesh PMesh MScattering SScattering PScattering.
From Verif Require Import MStrain SStrain PStrain MBeam SBeam PBeam MPolycrystal SPolycrystal SEvents PPolycrystal PPolycrystal2 PPolycrystal3 PEvents.
From Verif Require Import MDetector SDetector PDetector PDetector2 PDetector3 PDetector4 MClip MRender SRender PRender PRender2 PRender3 SEnd PEnd PEnd2 SJoin PJoin PJoin2.
From Coq Require Import Permutation.
From Verif Require Import PJoin3.
Open Scope list_scope. Open Scope R_scope.

(** C90. The picture of both samples together is the pixel-wise sum of their two pictures. *)
Theorem C90_joint_picture : forall e z x p1 p2 p b m lo hi pd1 pd2 pd s1 s2 s d frames ml mi im1 im2 im out1 out2 out,
  reachable_pc x p1 -> reachable_pc x p2 -> reachable_pc x p -> joined p1 p2 p ->
  diffract z x p1 b m lo hi None = (Ok pd1, s1) -> diffract z x p2 b m lo hi None = (Ok pd2, s2) -> diffract z x p b m lo hi None = (Ok pd, s) ->
  render e d pd1 frames "micro" ml mi = Ok (im1, out1) -> render e d pd2 frames "micro" ml mi = Ok (im2, out2) ->
  render e d pd frames "micro" ml mi = Ok (im, out) ->
  same_image im (add3 im1 im2).
Proof. exact pC90_joint_picture. Qed.
Print Assumptions C90_joint_picture.

(** ... by building it: the vertices, elements, orientations, strains and phase numbers of the two samples one after the other. *)
Theorem C90_built_together : forall x c1 c2 e1 e2 me1 me2 o1 o2 st1 st2 phs mp1 mp2 p1 p2,
  List.length mp1 = List.length e1 -> List.length mp2 = List.length e2 ->
  build_mesh c1 e1 = Ok me1 -> build_mesh c2 e2 = Ok me2 ->
  make_polycrystal x me1 (Stack o1) (Stack st1) phs (Some mp1) = Ok p1 ->
  make_polycrystal x me2 (Stack o2) (Stack st2) phs (Some mp2) = Ok p2 ->
  exists me p, build_mesh (c1 ++ c2) (e1 ++ map (shift_nodes (List.length c1)) e2) = Ok me /\
    make_polycrystal x me (Stack (o1 ++ o2)) (Stack (st1 ++ st2)) phs (Some (mp1 ++ mp2)) = Ok p /\ joined p1 p2 p.
Proof. exact pC90_built_together. Qed.
Print Assumptions C90_built_together.

(** ... and it stays joined through transform and diffract. *)
Theorem C90_stays_joined : forall z x p1 p2 p m t b lo hi, joined p1 p2 p ->
  joined (transform p1 m t) (transform p2 m t) (transform p m t) /\
  joined (snd (diffract z x p1 b m lo hi None)) (snd (diffract z x p2 b m lo hi None)) (snd (diffract z x p b m lo hi None)).
Proof. exact pC90_stays_joined. Qed.
Print Assumptions C90_stays_joined.

