(** Generated by tools/gen_properties.py from PPolycrystal2.v: the property theorems,
    verbatim, each closed by [exact]. Contains nothing else. *)
From Verif Require Import Vec Spec MMotion PMotion MLaue PLaue MMesh SMesh PMesh MScattering SScattering PScattering.
From Verif Require Import MStrain SStrain PStrain MBeam SBeam PBeam MPolycrystal SPolycrystal PPolycrystal.
From Verif Require Import PPolycrystal2.
Open Scope R_scope.

(** C14. After any sequence of transforms (with unit axes) the sample-frame mesh,
    orientations and strains, the element volumes and the lattice matrices are
    those of construction; the lab mesh is a rigid image of the original by a
    rotation that also turned every orientation matrix; orientations stay
    rotations; the strain seen in each crystal's frame is unchanged, and
    recomputing the lattice matrices from the current lab state gives the stored
    ones; the stored volumes are the volumes of the current lab elements. *)
Theorem C14_material_state : forall x coord enod me o s phs mp p moves p1,
  build_mesh coord enod = Ok me -> make_polycrystal x me o s phs mp = Ok p ->
  (forall mt, In mt moves -> unit (m_axis (fst mt))) -> p1 = transforms moves p ->
  pc_mesh_sample p1 = me /\ pc_U_sample p1 = pc_U p /\ pc_eps_sample p1 = pc_eps p /\
  pc_volumes p1 = pc_volumes p /\ pc_eB p1 = pc_eB p /\
  (Forall is_rotation (pc_U p) -> Forall is_rotation (pc_U p1)) /\
  (forall e U1 eps1, nth_error (pc_U p1) e = Some U1 -> nth_error (pc_eps p1) e = Some eps1 ->
     exists U eps, nth_error (pc_U p) e = Some U /\ nth_error (pc_eps p) e = Some eps /\
       to_crystal U1 eps1 = to_crystal U eps) /\
  instantiate_eB x (pc_U p1) (pc_eps p1) (pc_phases p1) (pc_map p1) (List.length enod) = Ok (pc_eB p1) /\
  (exists Q b, is_rotation Q /\ me_coord (pc_mesh_lab p1) = map (fun v => vadd (mv Q v) b) coord /\
     pc_U p1 = map (mm Q) (pc_U p)) /\
  (forall e a b c d, corners (pc_mesh_lab p1) e a b c d ->
     nth_error (pc_volumes p1) e = Some (Rabs (signed_vol6 a b c d) / 6)).
Proof. exact pC14_material_state. Qed.
Print Assumptions C14_material_state.

(** C14. Scattering vectors keep their length. *)
Theorem C14_reciprocal_lengths : forall p moves e h G,
  (forall mt, In mt moves -> unit (m_axis (fst mt))) -> scattering_vector p e h G ->
  exists G', scattering_vector (transforms moves p) e h G' /\ norm G' = norm G.
Proof. exact pC14_reciprocal_lengths. Qed.
Print Assumptions C14_reciprocal_lengths.

(** C15. Rows of the sample moved to time s by the motion, diffracted during the
    same motion, describe the unmoved sample at time s + t: the diffraction
    vector and the scattered wave vector agree, and the Laue condition holds
    there. *)
Theorem C15_moved_rows : forall z x p b a w T o m s lo hi det d p' row,
  make_motion a w T o = Ok m -> unit a ->
  diffract z x (transform p m s) b m lo hi det = (Ok d, p') -> In row (pd_peaks d) ->
  exists e i h t G0 G, in_phase p e i /\ scattering_vector p e h G0 /\ 0 <= t <= 1 /\
    has d row "grain_index" (INR e) /\ has_vec d row "h" "k" "l" h /\ has d row "diffraction_times" t /\
    motion_rotate m (P1 G0) (S0 (s + t)) = Ok (P1 G) /\
    has_vec d row "Gx" "Gy" "Gz" G /\
    has_vec d row "K_out_x" "K_out_y" "K_out_z" (vadd (b_wave_vector b) G) /\
    laue_condition (b_wave_vector b) G.
Proof. exact pC15_moved_rows. Qed.
Print Assumptions C15_moved_rows.

(** C15. Conversely every event of the unmoved sample at time s + t, 0 <= t <= 1,
    outside the blind spot and with the moved element centre in the beam, is
    reported for the moved sample at time t. *)
Theorem C15_moved_complete : forall z x p b a w T o m s lo hi det d p' e i ph h sf t G0 G c c1 src,
  reachable_pc x p -> make_motion a w T o = Ok m -> unit a ->
  diffract z x (transform p m s) b m lo hi det = (Ok d, p') ->
  in_phase p e i -> nth_error (pc_phases p') i = Some ph -> plane_of ph h sf -> scattering_vector p e h G0 ->
  0 <= t <= 1 -> motion_rotate m (P1 G0) (S0 (s + t)) = Ok (P1 G) -> laue_condition (b_wave_vector b) G ->
  ~ laue_condition (b_wave_vector b) (right_handed_rotation a (w * s + PI) G0) ->
  nth_error (me_espherecentroids (pc_mesh_lab p)) e = Some c -> motion_call m (P1 c) (S0 s) = Ok (P1 c1) ->
  motion_call m (P1 c1) (S0 t) = Ok (P1 src) -> strictly_inside (b_halfspaces b) src ->
  exists row, In row (pd_peaks d) /\ has d row "grain_index" (INR e) /\ has d row "phase_number" (INR i) /\
    has_vec d row "h" "k" "l" h /\ has d row "diffraction_times" t.
Proof. exact pC15_moved_complete. Qed.
Print Assumptions C15_moved_complete.

(** C15. Source points: those of the moved sample differ from those of the unmoved
    sample at s + t by exactly s (R_t T - T), so they agree for all times iff
    nothing was moved or the motion's rotation leaves its translation alone. *)
Theorem C15_source_offset : forall a w T o m s t c c1 src src',
  make_motion a w T o = Ok m -> unit a ->
  motion_call m (P1 c) (S0 s) = Ok (P1 c1) -> motion_call m (P1 c1) (S0 t) = Ok (P1 src) ->
  motion_call m (P1 c) (S0 (s + t)) = Ok (P1 src') ->
  src = vadd src' (vscale s (vsub (right_handed_rotation a (w * t) T) T)) /\
  (src = src' <-> s = 0 \/ right_handed_rotation a (w * t) T = T).
Proof. exact pC15_source_offset. Qed.
Print Assumptions C15_source_offset.

Theorem C15_source_refuted : exists a w T o m s t c c1 src src',
  make_motion a w T o = Ok m /\ unit a /\ 0 < s /\ 0 < t /\ s + t <= 1 /\
  motion_call m (P1 c) (S0 s) = Ok (P1 c1) /\ motion_call m (P1 c1) (S0 t) = Ok (P1 src) /\
  motion_call m (P1 c) (S0 (s + t)) = Ok (P1 src') /\ src <> src'.
Proof. exact pC15_source_refuted. Qed.
Print Assumptions C15_source_refuted.

(** C16. After diffract, transforming the same polycrystal object changes the mesh
    seen through the returned dictionary to the transformed one and nothing else
    of the dictionary. *)
Theorem C16_dict_follows_transform : forall z x h o b m lo hi det d o1 mt t h2 o2 D,
  obj_diffract z x h o b m lo hi det = Some (Ok d, o1) ->
  obj_transform h o1 mt t = Some (h2, o2) -> view_dict h d = Some D ->
  exists D2, view_dict h2 d = Some D2 /\
    pd_mesh D2 = mesh_update (pd_mesh D) mt t /\
    pd_peaks D2 = pd_peaks D /\ pd_columns D2 = pd_columns D /\ pd_incident D2 = pd_incident D /\
    pd_wavelength D2 = pd_wavelength D /\ pd_axis D2 = pd_axis D /\ pd_motion D2 = pd_motion D /\ pd_beam D2 = pd_beam D.
Proof. exact pC16_dict_follows_transform. Qed.
Print Assumptions C16_dict_follows_transform.

(** C16. A constructor never shares: transforming a freshly built polycrystal
    leaves every mesh object that existed before (the caller's mesh, other
    polycrystals' meshes, hence their dictionaries) untouched. *)
Theorem C16_constructor_copies : forall x h a o s phs mp h1 p1 m t h2 p2 k me,
  obj_make x h a o s phs mp = Ok (h1, p1) -> obj_transform h1 p1 m t = Some (h2, p2) ->
  nth_error h k = Some me -> nth_error h2 k = Some me.
Proof. exact pC16_constructor_copies. Qed.
Print Assumptions C16_constructor_copies.

(** C17. Without a detector the two limits are used as given, unchecked: the call
    never fails an assertion, and every phase is given the planes xfab generates
    between sin(min)/lambda and sin(max)/lambda. *)
Theorem C17_no_detector : forall z x p b m lo hi,
  fst (diffract z x p b m lo hi None) <> Err AssertionError /\
  forall i ph, nth_error (pc_phases p) i = Some ph -> exists ph',
    nth_error (pc_phases (snd (diffract z x p b m lo hi None))) i = Some ph' /\
    ph_hkl ph' = Some (x_genhkl x (ph_cell ph) (sin lo / b_wavelength b) (sin hi / b_wavelength b) (ph_sg ph)).
Proof. exact pC17_no_detector. Qed.
Print Assumptions C17_no_detector.

(** C17. With a detector the user's maximum is ignored and replaced by the wrapping
    cone of the detector seen from the illuminated part of the sample. *)
Theorem C17_detector_max_ignored : forall z x p b m lo hi hi' det,
  diffract z x p b m lo hi (Some det) = diffract z x p b m lo hi' (Some det).
Proof. exact pC17_detector_max_ignored. Qed.
Print Assumptions C17_detector_max_ignored.

Theorem C17_detector_limits : forall z x p b m lo hi det r,
  det (b_wave_vector b) (bragg_source p b) = Fin r ->
  (~ (0 <= lo < r) -> diffract z x p b m lo hi (Some det) = (Err AssertionError, p)) /\
  (0 <= lo < r -> fst (diffract z x p b m lo hi (Some det)) <> Err AssertionError /\
    diffract z x p b m lo hi (Some det) = diffract z x p b m lo r None).
Proof. exact pC17_detector_limits. Qed.
Print Assumptions C17_detector_limits.

(** C17. The source point for the cone is the mean of the lab mesh nodes strictly
    inside the beam, and the mesh centroid if there are none. *)
Theorem C17_cone_source : forall p b,
  (forall v, In v (me_coord (pc_mesh_lab p)) -> ~ strictly_inside (b_halfspaces b) v) ->
  bragg_source p b = me_centroid (pc_mesh_lab p).
Proof. exact pC17_cone_source. Qed.
Print Assumptions C17_cone_source.

(** C17. ... and if some node is lit, the mean of exactly the lit nodes, each counted
    as often as it occurs. *)
Theorem C17_cone_source_lit : forall p b lit v,
  (forall v, lit v = true <-> strictly_inside (b_halfspaces b) v) ->
  In v (me_coord (pc_mesh_lab p)) -> strictly_inside (b_halfspaces b) v ->
  vscale (INR (List.length (filter lit (me_coord (pc_mesh_lab p))))) (bragg_source p b) =
    fold_right vadd vzero (filter lit (me_coord (pc_mesh_lab p))) /\
  0 < INR (List.length (filter lit (me_coord (pc_mesh_lab p)))).
Proof. exact pC17_cone_source_lit. Qed.
Print Assumptions C17_cone_source_lit.

(** C17. An undefined (NaN) cone also fails the assertion and changes nothing. *)
Theorem C17_undefined_cone : forall z x p b m lo hi det,
  det (b_wave_vector b) (bragg_source p b) = NaN ->
  diffract z x p b m lo hi (Some det) = (Err AssertionError, p).
Proof. exact pC17_undefined_cone. Qed.
Print Assumptions C17_undefined_cone.

(** C17 finding. Limits beyond 90 degrees fold back: max and pi - max select the
    same planes, so e.g. max = pi behaves like max = 0. *)
Theorem C17_beyond_ninety : forall z x p b m lo hi,
  diffract z x p b m lo hi None = diffract z x p b m lo (PI - hi) None.
Proof. exact pC17_beyond_ninety. Qed.
Print Assumptions C17_beyond_ninety.

(** C18. The table returned by diffract is the same whatever diffract calls, with
    whatever beams, motions, limits and detectors, were made before and between
    the transforms. *)
Theorem C18_history_independent : forall z x p ops b m lo hi det,
  fst (diffract z x (pc_run z x ops p) b m lo hi det) =
  fst (diffract z x (pc_run z x (filter is_transform ops) p) b m lo hi det).
Proof. exact pC18_history_independent. Qed.
Print Assumptions C18_history_independent.

(** C19. Orientation and strain arguments: one 3x3 matrix is given to every
    element, a stack of exactly N matrices is used element by element, any other
    shape raises ValueError. *)
Theorem C19_matrix_argument : forall N a,
  match a with
  | One A => exists l, instantiate_mats N a = Ok l /\ List.length l = N /\ forall e, (e < N)%nat -> nth_error l e = Some A
  | Stack l => (List.length l = N -> instantiate_mats N a = Ok l) /\
               (List.length l <> N -> instantiate_mats N a = Err ValueError)
  | OtherShape => instantiate_mats N a = Err ValueError
  end.
Proof. exact pC19_matrix_argument. Qed.
Print Assumptions C19_matrix_argument.

(** C19. Constructor: on a mesh whose elements exist, orientation and strain of bad
    shape raise ValueError, as do several phases without a map; otherwise the
    lab and sample frames coincide and carry the given values, and with one phase
    and no map every element is in phase 0. *)
Theorem C19_constructor : forall x coord enod me o s phs mp,
  build_mesh coord enod = Ok me ->
  (instantiate_mats (List.length enod) o = Err ValueError -> make_polycrystal x me o s phs mp = Err ValueError) /\
  (forall U, instantiate_mats (List.length enod) o = Ok U ->
     instantiate_mats (List.length enod) s = Err ValueError -> make_polycrystal x me o s phs mp = Err ValueError) /\
  (forall U eps, instantiate_mats (List.length enod) o = Ok U -> instantiate_mats (List.length enod) s = Ok eps ->
     (1 < List.length phs)%nat -> make_polycrystal x me o s phs None = Err ValueError) /\
  (forall p, make_polycrystal x me o s phs mp = Ok p ->
     instantiate_mats (List.length enod) o = Ok (pc_U p) /\ instantiate_mats (List.length enod) s = Ok (pc_eps p) /\
     pc_U_sample p = pc_U p /\ pc_eps_sample p = pc_eps p /\ pc_mesh_lab p = me /\ pc_mesh_sample p = me /\
     pc_phases p = phs /\
     (forall l, mp = Some l -> pc_map p = MapTensor l) /\
     (mp = None -> (List.length phs <= 1)%nat /\ forall e, (e < List.length enod)%nat -> in_phase p e 0)).
Proof. exact pC19_constructor. Qed.
Print Assumptions C19_constructor.

(** C19. The lattice matrix of every element is the one of its own phase, strained
    by its own strain seen in its own crystal frame. *)
Theorem C19_lattice : forall x me o s phs mp p e i ph U eps,
  make_polycrystal x me o s phs mp = Ok p -> in_phase p e i -> nth_error phs i = Some ph ->
  nth_error (pc_U p) e = Some U -> nth_error (pc_eps p) e = Some eps -> symmetric eps ->
  exists B F, nth_error (pc_eB p) e = Some B /\ upper_triangular F /\ 0 < det F /\
    mm F B = x_form_b x (ph_cell ph) /\ mm (mT F) F = cauchy_green (to_crystal U eps).
Proof. exact pC19_lattice. Qed.
Print Assumptions C19_lattice.

(** C70. The phase map's length and range are not checked: entries that match no
    phase number (negative, fractional, too large) or a map that is too short leave
    those elements with a zero lattice matrix, and no row ever refers to them. *)
Theorem C70_unmapped_elements : forall z x me o s phs mp p b m lo hi det d p' row e ei,
  make_polycrystal x me o s phs mp = Ok p -> (e < List.length (me_enod me))%nat ->
  (forall i, (i < List.length phs)%nat -> ~ in_phase p e i) ->
  nth_error (pc_eB p) e = Some mzero /\
  (diffract z x p b m lo hi det = (Ok d, p') -> In row (pd_peaks d) -> has d row "grain_index" (INR ei) -> ei <> e).
Proof. exact pC70_unmapped_elements. Qed.
Print Assumptions C70_unmapped_elements.

(** C70. A map entry beyond the last element that does match a phase number makes
    the constructor raise IndexError. *)
Theorem C70_map_too_long : forall x coord enod me o s U eps phs l e i,
  build_mesh coord enod = Ok me ->
  instantiate_mats (List.length enod) o = Ok U -> instantiate_mats (List.length enod) s = Ok eps ->
  nth_error l e = Some (INR i) -> (List.length enod <= e)%nat -> (i < List.length phs)%nat ->
  exists err, make_polycrystal x me o s phs (Some l) = Err err.
Proof. exact pC70_map_too_long. Qed.
Print Assumptions C70_map_too_long.

