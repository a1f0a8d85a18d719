(** Generated by tools/gen_properties.py from PPhase.v: the property theorems,
    verbatim, each closed by [exact]. Contains nothing else. *)
From Verif Require Import Vec Spec MMotion MLaue MMesh MScattering MBeam MPolycrystal MStructure MPhase SStructure SPolycrystal SPhase.
From Verif Require Import PMotion PLaue PMesh PBeam PStrain PPolycrystal PPolycrystal3 PStructure.
From Coq Require Import String.
From Verif Require Import PPhase.
Open Scope list_scope. Open Scope R_scope.

(** Structure factors are available exactly for readable files; no other condition, and it does
    not depend on the reflections. *)
Theorem C87_readable_iff : forall t dk ph cif hkl, ph_cif ph = Some cif ->
  (exists F, structure_batch t dk hkl (ph_cell ph) (ph_sg ph) cif = Ok F) <-> readable t dk ph.
Proof. exact pC87_readable_iff. Qed.
Print Assumptions C87_readable_iff.

(** Only the first block of the file counts; a file without blocks is an IndexError. *)
Theorem C87_first_block : forall t dk dk' hkl cell sg cif first others others',
  dk cif = Ok (first :: others) -> dk' cif = Ok (first :: others') ->
  structure_batch t dk hkl cell sg cif = structure_batch t dk' hkl cell sg cif.
Proof. exact pC87_first_block. Qed.
Print Assumptions C87_first_block.

Theorem C87_no_block : forall t dk hkl cell sg cif, dk cif = Ok [] -> structure_batch t dk hkl cell sg cif = Err IndexError.
Proof. exact pC87_no_block. Qed.
Print Assumptions C87_no_block.

(** Polycrystals that share Phase objects do not disturb each other: whatever was called before,
    on any of them, successfully or not, and whatever the CIF files contained at that time, a call
    of diffract gives the result it would have given after this polycrystal's own transforms alone. *)
Theorem C87_no_interference : forall z t s ops k dk b m lo hi det,
  call_diffract z t (shared_run z t ops s) k dk b m lo hi det =
  call_diffract z t (shared_run z t (filter (moves k) ops) s) k dk b m lo hi det.
Proof. exact pC87_no_interference. Qed.
Print Assumptions C87_no_interference.

(** Nothing ever changes what a phase is, and structure factors that were set by hand for a phase
    without CIF file stay. *)
Theorem C87_material_kept : forall z t s ops i ph, nth_error (sh_phases s) i = Some ph ->
  exists ph', nth_error (sh_phases (shared_run z t ops s)) i = Some ph' /\ same_material ph ph' /\
    (ph_cif ph = None -> ph_sf ph' = ph_sf ph).
Proof. exact pC87_material_kept. Qed.
Print Assumptions C87_material_kept.

(** If all files can be read, a call on shared objects is the call on a polycrystal of its own
    (so the theorems about diffract, C10 - C18, hold for it), and afterwards the shared objects
    are that polycrystal's phases. *)
Theorem C87_same_as_unshared : forall z t dk h q p b m lo hi det,
  view h q = Ok p -> Forall (readable t dk) (pc_phases p) ->
  fst (shared_diffract z t dk h q b m lo hi det) = fst (diffract z (crystallography t dk) p b m lo hi det) /\
  view (snd (shared_diffract z t dk h q b m lo hi det)) q = Ok (snd (diffract z (crystallography t dk) p b m lo hi det)).
Proof. exact pC87_same_as_unshared. Qed.
Print Assumptions C87_same_as_unshared.

(** Both together: after any history on any of the polycrystals, a call whose files can be read
    gives exactly what a polycrystal with phases of its own gives after this one's transforms. *)
Theorem C87_as_if_alone : forall z t s ops k q p dk b m lo hi det,
  nth_error (sh_pcs s) k = Some q -> view (sh_phases s) q = Ok p -> Forall (readable t dk) (pc_phases p) ->
  call_diffract z t (shared_run z t ops s) k dk b m lo hi det =
  Some (fst (diffract z (crystallography t dk) (alone k ops p) b m lo hi det)).
Proof. exact pC87_as_if_alone. Qed.
Print Assumptions C87_as_if_alone.

(** After a call without exception from the files, the reflections and structure factors of every
    phase used belong together: one value per reflection, the textbook sum for the first block. *)
Theorem C87_up_to_date : forall t dk h idx wl lo hi h' i ph, setup_all t dk h idx wl lo hi = (h', None) -> In i idx ->
  nth_error h i = Some ph ->
  exists ph', nth_error h' i = Some ph' /\ same_material ph ph' /\ ph_hkl ph' = Some (planes_between t ph wl lo hi) /\
    (ph_cif ph = None -> ph_sf ph' = ph_sf ph) /\
    (ph_cif ph <> None -> exists st u, crystal_of t dk ph st u /\
       ph_sf ph' = Some (map (fun h => (F_re st u h, F_im st u h)) (planes_between t ph wl lo hi))).
Proof. exact pC87_up_to_date. Qed.
Print Assumptions C87_up_to_date.

(** If the file of the phase at position i cannot be used, the call raises that error; the phases
    before it are completely set up, this phase has the reflections of the new call but still its
    old structure factors, and all other phases are as before. *)
Theorem C87_half_updated : forall z t dk h p pre i post b m lo hi ph cif e,
  nth_error h i = Some ph -> ph_cif ph = Some cif ->
  structure_batch t dk (planes_between t ph (b_wavelength b) lo hi) (ph_cell ph) (ph_sg ph) cif = Err e ->
  (forall k, In k pre -> k <> i /\ exists ph', nth_error h k = Some ph' /\ readable t dk ph') ->
  exists h', shared_diffract z t dk h (p, pre ++ i :: post) b m lo hi None = (Err e, h') /\
    nth_error h' i = Some (Phase (ph_cell ph) (ph_sg ph) (ph_cif ph) (Some (planes_between t ph (b_wavelength b) lo hi)) (ph_sf ph)) /\
    (forall k ph', In k pre -> nth_error h k = Some ph' -> nth_error h' k = Some (setup_planes (crystallography t dk) ph' (b_wavelength b) lo hi)) /\
    (forall k, ~ In k pre -> k <> i -> nth_error h' k = nth_error h k).
Proof. exact pC87_half_updated. Qed.
Print Assumptions C87_half_updated.

(** The intensity column comes from the first block of the phase's file: |F|^2 of the row's own
    reflection, and rows with |F|^2 <= 1e-6 do not exist; 1 for a phase without file that never
    had structure factors. *)
Theorem C87_structure_column : forall z t dk h q p b m lo hi det d h' row,
  view h q = Ok p -> Forall (readable t dk) (pc_phases p) ->
  shared_diffract z t dk h q b m lo hi det = (Ok d, h') -> In row (pd_peaks d) ->
  exists e i ph hkl sf, in_phase p e i /\ nth_error (pc_phases p) i = Some ph /\
    has d row "grain_index" (INR e) /\ has d row "phase_number" (INR i) /\ has_vec d row "h" "k" "l" hkl /\
    has d row "structure_factors" sf /\
    (ph_cif ph = None -> ph_sf ph = None -> sf = 1) /\
    (ph_cif ph <> None -> exists st u, crystal_of t dk ph st u /\ sf = intensity (F_re st u hkl, F_im st u hkl) /\ / 10^6 < sf).
Proof. exact pC87_structure_column. Qed.
Print Assumptions C87_structure_column.

(** The theorems about single polycrystals that ask for one structure factor per reflection apply. *)
Theorem C87_one_per_reflection : forall t dk, xtal_ok (crystallography t dk).
Proof. exact pC87_one_per_reflection. Qed.
Print Assumptions C87_one_per_reflection.

(** After a failing call the two attributes of a phase need not belong together: here one
    reflection and two structure factors.  (The next call repairs it: no_interference.) *)
Theorem C87_attributes_consistent_refuted : forall z p b m, 0 < b_wavelength b ->
  exists h1 h2 ph, snd (shared_diffract z ex_tables ex_disk [cif_phase] (p, [0%nat]) b m 0 1 None) = h1 /\
    shared_diffract z ex_tables gone h1 (p, [0%nat]) b m (PI / 2) 1 None = (Err FileNotFoundError, h2) /\
    nth_error h2 0 = Some ph /\ ph_hkl ph = Some one_plane /\ ph_sf ph = Some [(6, 0); (6, 0)] /\ List.length one_plane = 1%nat.
Proof. exact pC87_attributes_consistent_refuted. Qed.
Print Assumptions C87_attributes_consistent_refuted.

(** A call on a phase with a CIF file that returns a table with a row. *)
Example C87_table_nonvacuous : exists z q p b m d h' row,
  view [cif_phase] q = Ok p /\ Forall (readable ex_tables ex_disk) (pc_phases p) /\
  shared_diffract z ex_tables ex_disk [cif_phase] q b m 0 1 None = (Ok d, h') /\ In row (pd_peaks d) /\
  has d row "structure_factors" 36.
Proof. exact xC87_table. Qed.

