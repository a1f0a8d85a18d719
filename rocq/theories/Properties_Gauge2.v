(** Generated by tools/gen_properties.py from PGauge2.v: the property theorems,
    verbatim, each closed by [exact]. Contains nothing else. *)
From Verif Require Import Vec Spec MMotion PMotion MLaue PLaue MMesh SMesh PMesh MScattering SScattering PScattering.
From Verif Require Import MStrain SStrain PStrain MBeam SBeam PBeam MPolycrystal SPolycrystal PPolycrystal PPolycrystal2 PPolycrystal3 SGauge PGauge.
From Verif Require Import PGauge2.
Open Scope list_scope. Open Scope R_scope.

(** C107. A uniform expansion eps = c I lengthens every spacing by sqrt(1+2c): not by 1+c (the tensor is the
    Green-Lagrange strain, not the small strain); c above -1/2 is what the constructor accepted. *)
Theorem C107_uniform : forall z x p0 ops p b a w T o m lo hi det d p' row e i ph h c G0,
  proper_sample x p0 -> turns_rigidly ops -> p = pc_run z x ops p0 -> make_motion a w T o = Ok m ->
  diffract z x p b m lo hi det = (Ok d, p') -> In row (pd_peaks d) ->
  has d row "grain_index" (INR e) -> has d row "phase_number" (INR i) -> has_vec d row "h" "k" "l" h ->
  has_vec d row "G0_x" "G0_y" "G0_z" G0 ->
  nth_error (pc_phases p) i = Some ph -> nth_error (pc_eps p) e = Some (mscale c mI) ->
  0 <= 1 + 2 * c /\ free_length x ph h = norm G0 * sqrt (1 + 2 * c) /\
  (c <> 0 -> free_length x ph h <> norm G0 * (1 + c)).
Proof. exact pC107_uniform. Qed.
Print Assumptions C107_uniform.

(** C107. The peaks determine the strain: when the normals of some rows of an element resolve all strain
    components (only the zero tensor has no component along any of them), the element's strain is the only
    symmetric tensor that reproduces the spacings of those rows. *)
Theorem C107_determined : forall z x p0 ops p b a w T o m lo hi det d p' rows e i ph eps A,
  proper_sample x p0 -> turns_rigidly ops -> p = pc_run z x ops p0 -> make_motion a w T o = Ok m ->
  diffract z x p b m lo hi det = (Ok d, p') ->
  (forall row, In row rows -> In row (pd_peaks d) /\ has d row "grain_index" (INR e) /\ has d row "phase_number" (INR i)) ->
  nth_error (pc_phases p) i = Some ph -> nth_error (pc_eps p) e = Some eps -> rows <> [] ->
  (forall D, symmetric D ->
     (forall row G0, In row rows -> has_vec d row "G0_x" "G0_y" "G0_z" G0 -> strain_along D (direction G0) = 0) -> D = mzero) ->
  symmetric A ->
  (forall row h G0, In row rows -> has_vec d row "h" "k" "l" h -> has_vec d row "G0_x" "G0_y" "G0_z" G0 ->
     (free_length x ph h / norm G0) ^ 2 = 1 + 2 * strain_along A (direction G0)) ->
  A = eps.
Proof. exact pC107_determined. Qed.
Print Assumptions C107_determined.

(** Six lattice directions resolve all strain components (so the hypothesis on the rows is met by ordinary
    reflection lists). *)
Example C107_six_nonvacuous : forall D, symmetric D ->
  (forall N, In N [V3 1 0 0; V3 0 1 0; V3 0 0 1; V3 1 1 0; V3 1 0 1; V3 0 1 1] -> strain_along D (direction N) = 0) -> D = mzero.
Proof. exact xC107_six. Qed.

