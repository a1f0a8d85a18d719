(** Generated by tools/gen_properties.py from PPolycrystal.v: the property theorems,
    verbatim, each closed by [exact]. Contains nothing else. *)
From Verif Require Import Vec Spec MMotion PMotion MLaue PLaue MMesh SMesh PMesh MScattering SScattering PScattering.
From Verif Require Import MStrain SStrain PStrain MBeam SBeam PBeam MPolycrystal SPolycrystal.
From Verif Require Import PPolycrystal.
Open Scope R_scope.

(** C10. Every row of a peak table describes one diffraction event of one
    element: element and phase index, a plane of that phase with its squared
    structure factor, the time, G0 = U B hkl, G = the rotated G0, K_out = k + G,
    the source point, and the intensity factors of exactly these quantities. *)
Theorem C10_peak_contents : forall z x p b m lo hi det d p' row,
  diffract z x p b m lo hi det = (Ok d, p') -> In row (pd_peaks d) ->
  exists e i ph h sf t G0 G c s v,
    in_phase p e i /\ nth_error (pc_phases p') i = Some ph /\ plane_of ph h sf /\
    scattering_vector p e h G0 /\ 0 <= t <= 1 /\
    motion_rotate m (P1 G0) (S0 t) = Ok (P1 G) /\
    nth_error (me_espherecentroids (pc_mesh_lab p)) e = Some c /\ motion_call m (P1 c) (S0 t) = Ok (P1 s) /\
    nth_error (pc_volumes p) e = Some v /\
    has d row "grain_index" (INR e) /\ has d row "phase_number" (INR i) /\
    has_vec d row "h" "k" "l" h /\ has d row "structure_factors" sf /\ has d row "diffraction_times" t /\
    has_vec d row "G0_x" "G0_y" "G0_z" G0 /\ has_vec d row "Gx" "Gy" "Gz" G /\
    has_vec d row "K_out_x" "K_out_y" "K_out_z" (vadd (b_wave_vector b) G) /\
    has_vec d row "Source_x" "Source_y" "Source_z" s /\
    field d row "lorentz_factors" = Some (lorentz z (b_wave_vector b) (m_axis m) (vadd (b_wave_vector b) G)) /\
    field d row "polarization_factors" = Some (polarization (b_polarization b) (vadd (b_wave_vector b) G)) /\
    has d row "volumes" v /\
    (forall tth, has d row "2theta" tth ->
       field d row "scherrer_fwhm" = Some (scherrer z v tth (b_wavelength b))).
Proof. exact pC10_peak_contents. Qed.
Print Assumptions C10_peak_contents.

(** C11. Bragg's law for reported peaks: elastic scattering and
    |G0| = 2|k| sin(theta), i.e. lambda |G0| = 4 pi sin(theta), where 2theta is the
    angle between the incoming and the scattered wave vector. *)
Theorem C11_bragg : forall q z x p b a w T o m lo hi det d p' row,
  reachable_beam q b -> make_motion a w T o = Ok m -> unit a ->
  diffract z x p b m lo hi det = (Ok d, p') -> In row (pd_peaks d) ->
  exists G0 K tth,
    has_vec d row "G0_x" "G0_y" "G0_z" G0 /\ has_vec d row "K_out_x" "K_out_y" "K_out_z" K /\
    has d row "2theta" tth /\
    norm K = norm (b_wave_vector b) /\ 0 <= tth <= PI /\
    dot (b_wave_vector b) K = norm (b_wave_vector b) * norm K * cos tth /\
    norm G0 = 2 * norm (b_wave_vector b) * sin (tth / 2) /\
    b_wavelength b * norm G0 = 4 * PI * sin (tth / 2).
Proof. exact pC11_bragg. Qed.
Print Assumptions C11_bragg.

(** C12. The table has 25 distinct column names, every row has 25 entries, the
    peak index column counts rows from 0, and every row's source point is
    strictly inside the beam. *)
Theorem C12_table_shape : forall z x p b m lo hi det d p',
  diffract z x p b m lo hi det = (Ok d, p') ->
  List.length (pd_columns d) = 25%nat /\ NoDup (pd_columns d) /\
  forall k row, nth_error (pd_peaks d) k = Some row ->
    List.length row = 25%nat /\ has d row "peak_index" (INR k) /\
    exists s, has_vec d row "Source_x" "Source_y" "Source_z" s /\ strictly_inside (b_halfspaces b) s.
Proof. exact pC12_table_shape. Qed.
Print Assumptions C12_table_shape.

(** C12. Completeness: every element, plane and time in [0,1] at which the rotated
    scattering vector satisfies the Laue condition and the element's centre is
    strictly inside the beam has a row (unless the reflection also satisfies the
    Laue condition half a turn away, the solver's blind spot, C08). *)
Theorem C12_complete : forall z x p b a w T o m lo hi det d p' e i ph h sf t G0 G c s,
  reachable_pc x p -> make_motion a w T o = Ok m -> unit a ->
  diffract z x p b m lo hi det = (Ok d, p') ->
  in_phase p e i -> nth_error (pc_phases p') i = Some ph -> plane_of ph h sf -> scattering_vector p e h G0 ->
  0 <= t <= 1 -> motion_rotate m (P1 G0) (S0 t) = Ok (P1 G) -> laue_condition (b_wave_vector b) G ->
  ~ laue_condition (b_wave_vector b) (right_handed_rotation a PI G0) ->
  nth_error (me_espherecentroids (pc_mesh_lab p)) e = Some c -> motion_call m (P1 c) (S0 t) = Ok (P1 s) ->
  strictly_inside (b_halfspaces b) s ->
  exists row, In row (pd_peaks d) /\ has d row "grain_index" (INR e) /\ has d row "phase_number" (INR i) /\
    has_vec d row "h" "k" "l" h /\ has d row "diffraction_times" t.
Proof. exact pC12_complete. Qed.
Print Assumptions C12_complete.

(** C13. With a tensor phase map and acceptable limits a diffract call raises
    IndexError when the solver finds exactly one event in the whole sample (lit or
    not), and returns a table in every other case. *)
Theorem C13_outcome : forall z x p b m lo hi det l,
  reachable_pc x p -> xtal_ok x -> pc_map p = MapTensor l -> limits_ok p b lo det ->
  let '(r, p') := diffract z x p b m lo hi det in
  (event_count p' b m = 1%nat -> r = Err IndexError) /\
  (event_count p' b m <> 1%nat -> exists d, r = Ok d).
Proof. exact pC13_outcome. Qed.
Print Assumptions C13_outcome.

(** C13. A polycrystal constructed without a phase map raises TypeError in every
    diffract call that gets past the angle limits, whatever was called before; the
    same object saved and loaded again does not (its outcomes are those of
    pC13_outcome). *)
Theorem C13_no_phase_map : forall z x me o s ph p ops b m lo hi det,
  make_polycrystal x me o s [ph] None = Ok p ->
  let p1 := pc_run z x ops p in limits_ok p1 b lo det ->
  fst (diffract z x p1 b m lo hi det) = Err TypeError /\
  pc_map (reload p1) = MapTensor (repeat 0 (List.length (me_enod me))).
Proof. exact pC13_no_phase_map. Qed.
Print Assumptions C13_no_phase_map.

