(** Generated by tools/gen_properties.py from PExtra.v: the property theorems,
    verbatim, each closed by [exact]. Contains nothing else. *)
From Verif Require Import Vec Spec MMotion PMotion MLaue PLaue MMesh PMesh MScattering MStrain PStrain MBeam MPolycrystal SPolycrystal MDetector SDetector PDetector MRender SRender.
From Verif Require Import PDetector4 PRender MPersist SPersist PPersist MTemplates STemplates PTemplates PCylinder PRenderEx.
From Verif Require Import PExtra.
Open Scope R_scope.

(** C11: the (deprecated) Bragg-angle helper gives half the angle between the incoming and the
    diffracted wave vector of every diffracting G. *)
Theorem C11_bragg_angle : forall k G wavelength, 0 < wavelength -> norm k = 2 * PI / wavelength -> laue_condition k G ->
  0 <= bragg_angle G wavelength <= PI / 2 /\
  dot k (vadd k G) = norm k * norm (vadd k G) * cos (2 * bragg_angle G wavelength).
Proof. exact pC11_bragg_angle. Qed.
Print Assumptions C11_bragg_angle.

Example C11_bragg_angle_nonvacuous : norm (V3 (2 * PI) 0 0) = 2 * PI / 1 /\ laue_condition (V3 (2 * PI) 0 0) (V3 (- (2 * PI)) (2 * PI) 0) /\ V3 (- (2 * PI)) (2 * PI) 0 <> vzero.
Proof. exact xC11_bragg_angle. Qed.

(** C21: a singular reciprocal matrix raises LinAlgError when converted to a strain. *)
Theorem C21_singular_B : forall B B0, det B = 0 -> b_to_epsilon B B0 = Err LinAlgError.
Proof. exact pC21_singular_B. Qed.
Print Assumptions C21_singular_B.

Theorem C44_radius : forall d fz radius, d_sigma d <> 0 -> airy_radius d (Fin fz) = Ok radius ->
  let tail r := exp (- r^2 / (2 * (d_sigma d)^2)) in
  let start := Rmax (4 * fz) 8 in
  radius <= 128 /\ (radius = 128 \/ (start <= radius /\ tail radius < d_threshold d / 2)) /\
  (radius < 128 -> radius = start \/ d_threshold d / 2 <= tail (radius / 2)).
Proof. exact pC44_radius. Qed.
Print Assumptions C44_radius.

Example C44_radius_nonvacuous : exists d fz radius, built d /\ d_sigma d <> 0 /\ airy_radius d (Fin fz) = Ok radius.
Proof. exact xC44_radius. Qed.

(** C63: a polycrystal with a tensor phase map comes back identical; so does any polycrystal that was
    loaded before, and diffracting it gives the same answers. *)
Theorem C63_reload_identity : forall ot d path xdmf p l, openable d (with_ext ".pc" path) = true -> pc_map p = MapTensor l ->
  polycrystal_load (fst (polycrystal_save ot d path xdmf p)) (with_ext ".pc" path) = Ok p.
Proof. exact pC63_reload_identity. Qed.
Print Assumptions C63_reload_identity.

(** A polycrystal with the default map differs from its reloaded copy in that map's representation only. *)
Theorem C63_reload_default : forall ot d path xdmf p p', openable d (with_ext ".pc" path) = true ->
  polycrystal_load (fst (polycrystal_save ot d path xdmf p)) (with_ext ".pc" path) = Ok p' ->
  map_values (pc_map p') = map_values (pc_map p) /\ pc_volumes p' = pc_volumes p /\ pc_U p' = pc_U p /\ pc_eps p' = pc_eps p /\
  pc_phases p' = pc_phases p /\ pc_eB p' = pc_eB p /\ pc_mesh_lab p' = pc_mesh_lab p /\ pc_mesh_sample p' = pc_mesh_sample p /\
  pc_eps_sample p' = pc_eps_sample p /\ pc_U_sample p' = pc_U_sample p.
Proof. exact pC63_reload_default. Qed.
Print Assumptions C63_reload_default.

Theorem C76_spacing : forall height radius crystals rho, 0 < radius -> 0 < rho ->
  4/3 * PI * rho^3 = PI * radius^2 * height / INR crystals ->
  let n := INR (cylinder_sides height radius crystals) in
  2 * PI * radius / (n + 1) < 42/10 * rho /\ (8 < n -> 42/10 * rho <= 2 * PI * radius / n).
Proof. exact pC76_spacing. Qed.
Print Assumptions C76_spacing.

Example C76_spacing_nonvacuous : exists height radius crystals rho, 0 < radius /\ 0 < rho /\ 4/3 * PI * rho^3 = PI * radius^2 * height / INR crystals.
Proof. exact xC76_spacing. Qed.

(** C55: a call succeeds only if the axis is an array and every other documented value a number. *)
Theorem C55_types : forall q p r k, s3dxrd q p = Ok r -> In k documented_keys ->
  match p k with Some (VVec _) => k = "rotation_axis"%string | Some (VNum _) => k <> "rotation_axis"%string | None => False end.
Proof. exact pC55_types. Qed.
Print Assumptions C55_types.

