(** Generated by tools/gen_properties.py from POdf.v: the property theorems,
    verbatim, each closed by [exact]. Contains nothing else. *)
From Verif Require Import Vec Spec MMotion MMesh MStrain MBeam MPolycrystal MDetector MTemplates STemplates.
From Verif Require Import PDetector PDetector4 PRender.
From Coq Require Import String Permutation Ratan.
From Verif Require Import POdf.
Open Scope R_scope.

(** The step of the sampling grid lies between half the requested separation and the requested
    separation; a request above pi divides by zero. *)
Theorem C57_step : forall separation, 0 < separation <= PI ->
  odf_step separation = Ok (odf_bin_step separation) /\ separation / 2 <= odf_bin_step separation < separation.
Proof. exact pC57_step. Qed.
Print Assumptions C57_step.

Theorem C57_too_coarse : forall gen odf separation xs, PI < separation -> sample_odf gen odf separation xs = Err ZeroDivisionError.
Proof. exact pC57_too_coarse. Qed.
Print Assumptions C57_too_coarse.

(** The sampler uses n x 2n x 4n bins, n the whole part of pi / separation. *)
Theorem C57_bins : forall separation, 0 < separation <= PI -> INR (odf_count separation) < 10^7 ->
  let n := odf_count separation in let d := odf_bin_step separation in
  List.length (odf_grid d) = (8 * n * n * n)%nat /\
  forall g, In g (odf_grid d) <-> exists i j k, (i < n)%nat /\ (j < 2 * n)%nat /\ (k < 4 * n)%nat /\ g = bin_centre d i j k.
Proof. exact pC57_bins. Qed.
Print Assumptions C57_bins.

(** Every bin has a positive volume and together they make up half the unit 3-sphere, pi^2, with
    an error below 1e-6; so the assertion on the volumes (1e-5) never fires. *)
Theorem C57_volumes : forall separation, 0 < separation <= PI -> INR (odf_count separation) < 10^7 ->
  let d := odf_bin_step separation in
  (forall g, In g (odf_grid d) -> 0 < odf_volume d g) /\
  Rabs (sum_list (map (odf_volume d) (odf_grid d)) - PI * PI) < / 10^6.
Proof. exact pC57_volumes. Qed.
Print Assumptions C57_volumes.

Theorem C57_uniform_accepted : forall gen separation xs, 0 < separation <= PI -> INR (odf_count separation) < 10^7 ->
  exists ms, sample_odf gen (fun _ _ => / (PI * PI)) separation xs = Ok ms.
Proof. exact pC57_uniform_accepted. Qed.
Print Assumptions C57_uniform_accepted.

