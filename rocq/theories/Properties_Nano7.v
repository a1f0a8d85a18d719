(** Generated by tools/gen_properties.py from PNano7.v: the property theorems,
    verbatim, each closed by [exact]. Contains nothing else. *)
From Verif Require Import Vec Spec MMotion MLaue MMesh MScattering MStrain MBeam MPolycrystal SPolycrystal MDetector SDetector.
From Verif Require Import MRender SRender SNano SNano2 SJoin SNumber PLaue PMesh PScattering PBeam PDetector PDetector2 PDetector3 PDetector4 PRender PRender2 PRender2b PRenderEx PRender3 PKernel PKernel2 PKernel3 PMacro PPolycrystal PEvents PEnd2 PJoin2 PPass2 PNumber2 PWindow3 PNano PNanoEx PNano2 PNano3 PNano4 PNano5 PNano6.
From Coq Require Import Permutation FunctionalExtensionality String.
From Verif Require Import PNano7.
Open Scope list_scope. Open Scope R_scope.

(** Two tables whose rows together make up a third: all three pictures can be made, on whatever machines, and the
    third is the sum of the first two. *)
Theorem C101_superposition : forall e e1 e2 d pd pd1 pd2 part1 part2 frames ml mi out,
  fresh pd -> fresh pd1 -> fresh pd2 -> volumes_ok pd -> built d -> 0 < d_pz d -> d_sigma d <> 0 ->
  permutes (re_argsort e) -> permutes (re_argsort e1) -> permutes (re_argsort e2) ->
  re_z e1 = re_z e -> re_z e2 = re_z e -> re_j1 e1 = re_j1 e -> re_j1 e2 = re_j1 e ->
  project (re_z e) d pd (if (frames <? 1)%Z then 1%Z else frames) = Ok out ->
  (forall r, In r (pd_peaks out) -> proper_disc out r) -> uniform_discs d out ->
  Permutation (pd_peaks pd) (part1 ++ part2) -> Forall2 (alike pd1 pd) (pd_peaks pd1) part1 -> Forall2 (alike pd2 pd) (pd_peaks pd2) part2 ->
  exists im im1 im2 out1 out2, render e d pd frames "nano" ml mi = Ok (im, out) /\
    render e1 d pd1 frames "nano" ml mi = Ok (im1, out1) /\ render e2 d pd2 frames "nano" ml mi = Ok (im2, out2) /\ same_image im (add3 im1 im2).
Proof. exact pC101_superposition. Qed.
Print Assumptions C101_superposition.

(** Two tables with the same spots, in any order and under any numbers: the same picture. *)
Theorem C101_same_picture : forall e e' d pd pd' rows frames ml mi ml' mi' out,
  fresh pd -> fresh pd' -> volumes_ok pd -> built d -> 0 < d_pz d -> d_sigma d <> 0 ->
  permutes (re_argsort e) -> permutes (re_argsort e') -> re_z e' = re_z e -> re_j1 e' = re_j1 e ->
  project (re_z e) d pd (if (frames <? 1)%Z then 1%Z else frames) = Ok out ->
  (forall r, In r (pd_peaks out) -> proper_disc out r) -> uniform_discs d out ->
  Permutation (pd_peaks pd) rows -> Forall2 (alike pd' pd) (pd_peaks pd') rows ->
  exists im im' out', render e d pd frames "nano" ml mi = Ok (im, out) /\ render e' d pd' frames "nano" ml' mi' = Ok (im', out') /\ same_image im im'.
Proof. exact pC101_same_picture. Qed.
Print Assumptions C101_same_picture.

(** Two samples irradiated together (C90): their nano picture is the sum of their nano pictures. *)
Theorem C101_joined_samples : forall e e1 e2 z x p1 p2 p b m lo hi pd1 pd2 pd s1 s2 s d frames ml mi out,
  reachable_pc x p1 -> reachable_pc x p2 -> reachable_pc x p -> joined p1 p2 p ->
  diffract z x p1 b m lo hi None = (Ok pd1, s1) -> diffract z x p2 b m lo hi None = (Ok pd2, s2) -> diffract z x p b m lo hi None = (Ok pd, s) ->
  built d -> 0 < d_pz d -> d_sigma d <> 0 ->
  permutes (re_argsort e) -> permutes (re_argsort e1) -> permutes (re_argsort e2) ->
  re_z e1 = re_z e -> re_z e2 = re_z e -> re_j1 e1 = re_j1 e -> re_j1 e2 = re_j1 e ->
  project (re_z e) d pd (if (frames <? 1)%Z then 1%Z else frames) = Ok out ->
  (forall r, In r (pd_peaks out) -> proper_disc out r) -> uniform_discs d out ->
  exists im im1 im2 out1 out2, render e d pd frames "nano" ml mi = Ok (im, out) /\
    render e1 d pd1 frames "nano" ml mi = Ok (im1, out1) /\ render e2 d pd2 frames "nano" ml mi = Ok (im2, out2) /\ same_image im (add3 im1 im2).
Proof. exact pC101_joined_samples. Qed.
Print Assumptions C101_joined_samples.

(** Renumbering the elements and phases of the sample (C91) does not change the nano picture. *)
Theorem C101_renumbered_samples : forall e e' z x s u p q b m lo hi det pd pd' p' q' d frames ml mi out,
  reachable_pc x p -> reachable_pc x q -> renumbered s u p q ->
  diffract z x p b m lo hi det = (Ok pd, p') -> diffract z x q b m lo hi det = (Ok pd', q') ->
  built d -> 0 < d_pz d -> d_sigma d <> 0 ->
  permutes (re_argsort e) -> permutes (re_argsort e') -> re_z e = re_z e' -> re_j1 e = re_j1 e' ->
  project (re_z e') d pd' (if (frames <? 1)%Z then 1%Z else frames) = Ok out ->
  (forall r, In r (pd_peaks out) -> proper_disc out r) -> uniform_discs d out ->
  exists im im' out', render e' d pd' frames "nano" ml mi = Ok (im', out) /\ render e d pd frames "nano" ml mi = Ok (im, out') /\ same_image im' im.
Proof. exact pC101_renumbered_samples. Qed.
Print Assumptions C101_renumbered_samples.

(** ** Examples *)
Example C101_two_tables_nonvacuous : exists e d pd pd1 pd2 part1 part2 out, fresh pd /\ fresh pd1 /\ fresh pd2 /\ volumes_ok pd /\ built d /\ 0 < d_pz d /\ d_sigma d <> 0 /\
  permutes (re_argsort e) /\ project (re_z e) d pd 2 = Ok out /\ (forall r, In r (pd_peaks out) -> proper_disc out r) /\ uniform_discs d out /\
  Permutation (pd_peaks pd) (part1 ++ part2) /\ Forall2 (alike pd1 pd) (pd_peaks pd1) part1 /\ Forall2 (alike pd2 pd) (pd_peaks pd2) part2 /\
  List.length (pd_peaks out) = 2%nat /\ part1 <> [] /\ part2 <> [] /\ exists r r', In r (pd_peaks out) /\ In r' (pd_peaks out) /\ disc_radius d out r <> disc_radius d out r'.
Proof. exact xC101_two_tables. Qed.

(** Discs of different sizes: each of two tables can be drawn on a machine with 1 GB, the table that holds the rows of
    both raises RuntimeError there. *)
Theorem C101_mixed_discs_refuted : forall j1 argsort, (forall y, Rabs (2 * j1 y) <= Rabs y) -> 1/10 <= Rabs (j1 (38317/10000 * sqrt (145/2) / (17/8))) ->
  permutes argsort -> descending argsort ->
  exists e d pd pd1 pd2 im1 im2 out1 out2, re_j1 e = j1 /\ re_argsort e = argsort /\ built d /\ 0 < d_pz d /\ d_sigma d <> 0 /\
    fresh pd /\ volumes_ok pd /\ pd_peaks pd = pd_peaks pd1 ++ pd_peaks pd2 /\ Forall2 (alike pd1 pd) (pd_peaks pd1) (pd_peaks pd1) /\ Forall2 (alike pd2 pd) (pd_peaks pd2) (pd_peaks pd2) /\
    render e d pd1 2 "nano" None 1 = Ok (im1, out1) /\ render e d pd2 2 "nano" None 1 = Ok (im2, out2) /\ render e d pd 2 "nano" None 1 = Err RuntimeError.
Proof. exact pC101_mixed_discs_refuted. Qed.
Print Assumptions C101_mixed_discs_refuted.

(** On a rectangular detector, every projected row with a finite Scherrer width has a disc. *)
Theorem C101_width_suffices : forall z d pd frames out r x, built d -> rectangular (d_c0 d) (d_c1 d) (d_c2 d) -> fresh pd ->
  project z d pd frames = Ok out -> In r (pd_peaks out) -> has out r "scherrer_fwhm" x -> proper_disc out r.
Proof. exact pC101_width_suffices. Qed.
Print Assumptions C101_width_suffices.

(** For the peaks of a sample: the disc exists when the volume of the element is positive and the scattering angle is
    below 180 degrees. *)
Theorem C101_peaks_have_discs : forall z z' x p b m lo hi det pd p' d frames out r v t, diffract z x p b m lo hi det = (Ok pd, p') ->
  built d -> rectangular (d_c0 d) (d_c1 d) (d_c2 d) -> project z' d pd frames = Ok out -> In r (pd_peaks out) ->
  has out r "volumes" v -> 0 < v -> has out r "2theta" t -> - PI < t < PI -> proper_disc out r.
Proof. exact pC101_peaks_have_discs. Qed.
Print Assumptions C101_peaks_have_discs.

