(** * Specification vocabulary for polycrystals and peak tables (public
    attributes only). *)
From Verif Require Import Vec Spec MMotion MLaue MMesh MStrain MBeam MPolycrystal.
Open Scope R_scope.

(** Reading a named column of a peak row. *)
Fixpoint index_of (s : string) (l : list string) : option nat :=
  match l with
  | [] => None
  | x :: xs => if String.eqb s x then Some O else option_map S (index_of s xs)
  end.
Definition field (d : peaks_dict) (row : list num) (s : string) : option num :=
  match index_of s (pd_columns d) with Some j => nth_error row j | None => None end.
Definition has (d : peaks_dict) (row : list num) (s : string) (x : R) : Prop :=
  field d row s = Some (Fin x).
Definition has_vec (d : peaks_dict) (row : list num) (sx sy sz : string) (v : vec) : Prop :=
  has d row sx (vx v) /\ has d row sy (vy v) /\ has d row sz (vz v).

(** h is one of the Miller indices of the phase; sf its |F|^2, which must exceed
    1e-6, or 1 when the phase has no structure factors. *)
Definition plane_of (ph : phase) (h : vec) (sf : R) : Prop :=
  exists hkl j, ph_hkl ph = Some hkl /\ nth_error hkl j = Some h /\
    match ph_sf ph with
    | None => sf = 1
    | Some s => exists re im, nth_error s j = Some (re, im) /\ sf = re^2 + im^2 /\ / 10^6 < sf
    end.

(** element e belongs to phase number i *)
Definition in_phase (p : polycrystal) (e i : nat) : Prop :=
  nth_error (map_values (pc_map p)) e = Some (INR i).
(** the lab-frame scattering vector of plane h of element e *)
Definition scattering_vector (p : polycrystal) (e : nat) (h G : vec) : Prop :=
  exists U B, nth_error (pc_U p) e = Some U /\ nth_error (pc_eB p) e = Some B /\ G = mv U (mv B h).

(** Phases and polycrystals a program can obtain. *)
Inductive reachable_phase (x : xtal) : phase -> Prop :=
| rp_make cell sg cif : reachable_phase x (make_phase cell sg cif)
| rp_setup ph wl lo hi : reachable_phase x ph -> reachable_phase x (setup_planes x ph wl lo hi).
Inductive reachable_pc (x : xtal) : polycrystal -> Prop :=
| rpc_make coord enod me0 ops me o s phs mp p :
    build_mesh coord enod = Ok me0 -> mesh_run me0 ops = Ok me ->
    Forall (reachable_phase x) phs ->
    make_polycrystal x me o s phs mp = Ok p -> reachable_pc x p
| rpc_transform p m t : reachable_pc x p -> reachable_pc x (transform p m t)
| rpc_diffract z p b m lo hi det : reachable_pc x p ->
    reachable_pc x (snd (diffract z x p b m lo hi det))
| rpc_reload p : reachable_pc x p -> reachable_pc x (reload p).

(** xfab answers one structure factor per requested plane. *)
Definition xtal_ok (x : xtal) : Prop :=
  forall hkl cell sg cif, List.length (x_structure x hkl cell sg cif) = List.length hkl.

(** A history of public calls on one polycrystal. *)
Inductive pc_op :=
| OpTransform (m : motion) (t : R)
| OpDiffract (b : beam) (m : motion) (lo hi : R) (det : option cone).
Definition pc_step (z : bool) (x : xtal) (p : polycrystal) (o : pc_op) : polycrystal :=
  match o with
  | OpTransform m t => transform p m t
  | OpDiffract b m lo hi det => snd (diffract z x p b m lo hi det)
  end.
Definition pc_run z x (ops : list pc_op) (p : polycrystal) : polycrystal :=
  fold_left (pc_step z x) ops p.
Definition is_transform (o : pc_op) : bool := match o with OpTransform _ _ => true | _ => false end.

(** Number of diffraction events the Laue solver finds: over every phase, every
    element of that phase and every plane with a non-vanishing structure factor,
    the number of candidate times in [0,1] (two candidates per reflection). *)
Definition in01 (x : num) : nat := match in_unit_interval x with Some _ => 1 | None => 0 end.
Definition reflection_times (b : beam) (m : motion) (G : vec) : nat :=
  let c := laue_candidates (laue_factors (b_wave_vector b) (m_axis m)) (m_angle m) G in
  (in01 (fst c) + in01 (snd c))%nat.
Definition element_events (p : polycrystal) (b : beam) (m : motion) (planes : list (vec * R)) (e : nat) : nat :=
  match nth_error (pc_U p) e, nth_error (pc_eB p) e with
  | Some U, Some B => list_sum (map (fun hs => reflection_times b m (mv U (mv B (fst hs)))) planes)
  | _, _ => 0%nat
  end.
Definition phase_events (p : polycrystal) (b : beam) (m : motion) (i : nat) (ph : phase) : nat :=
  match used_planes ph with
  | Ok planes => list_sum (map (element_events p b m planes) (where_eq (map_values (pc_map p)) i))
  | Err _ => 0%nat
  end.
Definition event_count (p : polycrystal) (b : beam) (m : motion) : nat :=
  list_sum (mapi (phase_events p b m) (pc_phases p)).
(** The Bragg-angle limits a call works with are acceptable. *)
Definition limits_ok (p : polycrystal) (b : beam) (lo : R) (det : option cone) : Prop :=
  match det with
  | None => True
  | Some c => 0 <= lo /\ exists r, c (b_wave_vector b) (bragg_source p b) = Fin r /\ lo < r
  end.

(** A sequence of transform calls. *)
Definition transforms (moves : list (motion * R)) (p : polycrystal) : polycrystal :=
  fold_left (fun p mt => transform p (fst mt) (snd mt)) moves p.
