(** Generated by tools/gen_properties.py from POdf2.v: the property theorems,
    verbatim, each closed by [exact]. Contains nothing else. *)
From Verif Require Import Vec Spec MMotion MMesh MStrain MBeam MPolycrystal MDetector MTemplates STemplates.
From Verif Require Import PDetector PDetector4 PRender POdf.
From Coq Require Import String Permutation Ratan.
From Verif Require Import POdf2.
Open Scope R_scope.

(** The quaternion of three angles is a unit quaternion, whatever the angles. *)
Theorem C58_unit : forall a1 a2 a3, unit_quat (alpha_to_quaternion a1 a2 a3).
Proof. exact pC58_unit. Qed.
Print Assumptions C58_unit.

(** Bins that follow each other in one of the three angles differ by a rotation of at most
    2 x step = pi / n, which is below twice the requested separation. *)
Theorem C57_neighbours : forall separation i j k g', 0 < separation <= PI ->
  let d := odf_bin_step separation in
  g' = bin_centre d (S i) j k \/ g' = bin_centre d i (S j) k \/ g' = bin_centre d i j (S k) ->
  misorientation (quat_matrix (grid_quat (bin_centre d i j k))) (quat_matrix (grid_quat g')) <= PI / INR (odf_count separation) < 2 * separation.
Proof. exact pC57_neighbours. Qed.
Print Assumptions C57_neighbours.

(** The argument is called the maximum bin separation, but bins that follow each other in the
    first angle are exactly pi / n apart, never closer than the requested separation, and further
    apart whenever pi is not a multiple of it. *)
Theorem C57_separation_refuted : forall separation i j k, 0 < separation <= PI ->
  let d := odf_bin_step separation in
  let m := misorientation (quat_matrix (grid_quat (bin_centre d i j k))) (quat_matrix (grid_quat (bin_centre d (S i) j k))) in
  m = PI / INR (odf_count separation) /\ separation <= m /\ (separation * INR (odf_count separation) <> PI -> separation < m).
Proof. exact pC57_separation_refuted. Qed.
Print Assumptions C57_separation_refuted.

(** One proper rotation matrix per point. *)
Theorem C58_rotations : forall gen odf separation xs ms, sample_odf gen odf separation xs = Ok ms ->
  List.length ms = List.length xs /\ forall m, In m ms -> is_rotation m.
Proof. exact pC58_rotations. Qed.
Print Assumptions C58_rotations.

(** A successful call means that at every point the density had total weight within 5 % of 1 over
    the bins and was nowhere negative on them. *)
Theorem C58_accepted_means : forall gen odf separation xs ms, 0 < separation <= PI -> INR (odf_count separation) < 10^7 ->
  sample_odf gen odf separation xs = Ok ms -> forall x, In x xs ->
  Rabs (odf_total (odf_bin_step separation) odf x - 1) < 5/100 /\
  forall g, In g (odf_grid (odf_bin_step separation)) -> 0 <= odf x (grid_quat g).
Proof. exact pC58_accepted_means. Qed.
Print Assumptions C58_accepted_means.

(** Conversely a density that passes both checks at every point is sampled. *)
Theorem C58_accepted : forall gen odf separation xs, 0 < separation <= PI -> INR (odf_count separation) < 10^7 ->
  (forall x, In x xs -> Rabs (odf_total (odf_bin_step separation) odf x - 1) < 5/100 /\ forall g, In g (odf_grid (odf_bin_step separation)) -> 0 <= odf x (grid_quat g)) ->
  exists ms, sample_odf gen odf separation xs = Ok ms.
Proof. exact pC58_accepted. Qed.
Print Assumptions C58_accepted.

(** With a generator that keeps numpy's promises, every returned orientation lies within half a
    step, in each of the three angles, of a bin in which the density is positive at that point. *)
Theorem C58_from_bin : forall gen odf separation xs ms, fair gen -> 0 < separation <= PI -> INR (odf_count separation) < 10^7 ->
  sample_odf gen odf separation xs = Ok ms -> forall n x m, nth_error xs n = Some x -> nth_error ms n = Some m ->
  exists i j k a1 a2 a3, let d := odf_bin_step separation in let c := odf_count separation in
  (i < c)%nat /\ (j < 2 * c)%nat /\ (k < 4 * c)%nat /\ near_bin d (bin_centre d i j k) a1 a2 a3 /\
  0 < odf x (grid_quat (bin_centre d i j k)) /\ m = quat_matrix (alpha_to_quaternion a1 a2 a3).
Proof. exact pC58_from_bin. Qed.
Print Assumptions C58_from_bin.

(** The three angle ranges the bins divide up reach every orientation. *)
Theorem C58_covers : forall A, is_rotation A -> exists a1 a2 a3, 0 <= a1 <= PI / 2 /\ 0 <= a2 <= PI /\ 0 <= a3 <= 2 * PI /\
  quat_matrix (alpha_to_quaternion a1 a2 a3) = A.
Proof. exact pC58_covers. Qed.
Print Assumptions C58_covers.

(** 45 degrees: four steps of 22.5 degrees, 512 bins. *)
Example C57_quarter_nonvacuous : odf_step (PI / 4) = Ok (PI / 8) /\ List.length (odf_grid (PI / 8)) = 512%nat.
Proof. exact xC57_quarter. Qed.

(** 72 degrees requested: bins 90 degrees apart. *)
Example C57_separation_nonvacuous : misorientation (quat_matrix (grid_quat (bin_centre (odf_bin_step (2 * PI / 5)) 0 0 0)))
  (quat_matrix (grid_quat (bin_centre (odf_bin_step (2 * PI / 5)) 1 0 0))) = PI / 2.
Proof. exact xC57_separation. Qed.

Example C58_fair_nonvacuous : fair first_gen.
Proof. exact xC58_fair. Qed.

Example C58_sampled_nonvacuous : exists ms, sample_odf first_gen (fun _ _ => / (PI * PI)) (PI / 4) [V3 0 0 0; V3 1 2 3] = Ok ms.
Proof. exact xC58_sampled. Qed.

