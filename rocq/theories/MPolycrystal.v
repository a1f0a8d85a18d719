(** * Model of xrd_simulator/polycrystal.py and phase.py.  No proofs in this file.
    xfab's lattice routines and the structure-factor module are external here:
    their results are arguments ([xtal]). *)
From Verif Require Import Vec MMotion MLaue MMesh MScattering MStrain MBeam.
From Coq Require Export String.
Open Scope R_scope.

(** External crystallography: xfab tools.form_b_mat, tools.genhkl_all, and
    compute_structure_factors_batch (real and imaginary parts). *)
Record xtal := Xtal {
  x_form_b : list R -> mat;
  x_genhkl : list R -> R -> R -> string -> list vec;
  x_structure : list vec -> list R -> string -> string -> list (R * R)
}.

(** phase.py:68-73: attributes of a Phase. *)
Record phase := Phase {
  ph_cell : list R; ph_sg : string; ph_cif : option string;
  ph_hkl : option (list vec); ph_sf : option (list (R * R)) }.
(** phase.py:68-73 __init__. *)
Definition make_phase (cell : list R) (sg : string) (cif : option string) : phase :=
  Phase cell sg cif None None.

(** phase.py:75-128 _setup_diffracting_planes and _set_structure_factors. *)
Definition setup_planes (x : xtal) (ph : phase) (wavelength bmin bmax : R) : phase :=
  let hkl := x_genhkl x (ph_cell ph) (sin bmin / wavelength) (sin bmax / wavelength) (ph_sg ph) in
  Phase (ph_cell ph) (ph_sg ph) (ph_cif ph) (Some hkl)
    (match ph_cif ph with
     | Some cif => Some (x_structure x hkl (ph_cell ph) (ph_sg ph) cif)
     | None => ph_sf ph end).

(** Phase map: what self.element_phase_map holds.  A numpy array only when the
    argument was None (polycrystal.py:623-629). *)
Inductive phase_map := MapNumpy (l : list R) | MapTensor (l : list R).
Definition map_values (m : phase_map) : list R := match m with MapNumpy l | MapTensor l => l end.

Record polycrystal := PC {
  pc_volumes : list R;
  pc_U : list mat;  pc_eps : list mat;
  pc_map : phase_map; pc_phases : list phase;
  pc_eB : list mat;
  pc_mesh_lab : mesh; pc_mesh_sample : mesh;
  pc_eps_sample : list mat; pc_U_sample : list mat }.

(** Shape of an orientation / strain argument: (3,3), (n,3,3), anything else. *)
Inductive mats := One (A : mat) | Stack (l : list mat) | OtherShape.
(** polycrystal.py:544-597 _instantiate_orientation / _strain. *)
Definition instantiate_mats (N : nat) (a : mats) : result (list mat) :=
  match a with
  | One A => Ok (repeat A N)
  | Stack l => if Nat.eqb (List.length l) N then Ok l else Err ValueError
  | OtherShape => Err ValueError
  end.
(** polycrystal.py:599-630 _instantiate_phase ([phases] already a list). *)
Definition instantiate_phase (N : nat) (phases : list phase) (m : option (list R))
  : result phase_map :=
  match m with
  | None => if Nat.ltb 1 (List.length phases) then Err ValueError else Ok (MapNumpy (repeat 0 N))
  | Some l => Ok (MapTensor l)
  end.

(** polycrystal.py:289, 671: torch.where(map == i)[0]. *)
Definition where_eq (l : list R) (i : nat) : list nat :=
  List.concat (mapi (fun e v => if Req_EM_T v (INR i) then [e] else []) l).
(** polycrystal.py:307, 362, 365, 673: x[indices]; IndexError when out of range. *)
Definition gather {A} (l : list A) (idx : list nat) : result (list A) :=
  traverse (fun i => match nth_error l i with Some a => Ok a | None => Err IndexError end) idx.
(** polycrystal.py:672 _eB[indices] = values. *)
Fixpoint set_nth {A} (l : list A) (i : nat) (a : A) : list A :=
  match l, i with
  | [], _ => []
  | _ :: xs, O => a :: xs
  | x :: xs, S j => x :: set_nth xs j a
  end.
Definition scatter {A} (l : list A) (idx : list nat) (vals : list A) : list A :=
  fold_left (fun acc ia => set_nth acc (fst ia) (snd ia)) (combine idx vals) l.

(** polycrystal.py:632-676 _instantiate_eB. *)
Fixpoint eB_loop (x : xtal) (U eps : list mat) (map_ : list R) (i : nat) (phases : list phase)
  (eB : list mat) : result (list mat) :=
  match phases with
  | [] => Ok eB
  | ph :: rest =>
      let grains := where_eq map_ i in
      let* es := gather eps grains in
      let* us := gather U grains in
      let* Bs := lab_strain_to_B (x_form_b x (ph_cell ph)) es us in
      eB_loop x U eps map_ (S i) rest (scatter eB grains Bs)
  end.
Definition instantiate_eB (x : xtal) (U eps : list mat) (phases : list phase) (m : phase_map) (N : nat)
  : result (list mat) :=
  eB_loop x U eps (map_values m) 0 phases (repeat mzero N).

(** polycrystal.py:76-111 __init__.  [me] is a built mesh; volumes are the
    absolute tetrahedron volumes (89-93). *)
Definition make_polycrystal (x : xtal) (me : mesh) (orientation strain : mats)
  (phases : list phase) (m : option (list R)) : result polycrystal :=
  let N := List.length (me_enod me) in
  let* tets := traverse (gather_tet (me_coord me)) (me_enod me) in
  let* U := instantiate_mats N orientation in
  let* eps := instantiate_mats N strain in
  let* pm := instantiate_phase N phases m in
  let* eB := instantiate_eB x U eps phases pm N in
  Ok (PC (map tet_volume tets) U eps pm phases eB me me eps U).

(** ** Peaks *)
(** polycrystal.py:290-303: planes and squared structure factors actually used. *)
Definition used_planes (ph : phase) : result (list (vec * R)) :=
  match ph_hkl ph with
  | None => Err TypeError
  | Some hkl =>
      match ph_sf ph with
      | None => Ok (map (fun h => (h, 1)) hkl)
      | Some sf =>
          if Nat.eqb (List.length sf) (List.length hkl)
          then Ok (filter (fun hs => Rltb (/ 10^6) (snd hs))
                     (combine hkl (map (fun ab => fst ab ^ 2 + snd ab ^ 2) sf)))
          else Err IndexError
      end
  end.

(** polycrystal.py:286-346: the 10-column rows of one phase. *)
Definition peak_row10 (grains : list nat) (i : nat) (planes : list (vec * R)) (ev : event)
  : result (list R) :=
  match nth_error grains (ev_grain ev), nth_error planes (ev_plane ev) with
  | Some g, Some (h, sf) =>
      Ok ([INR g; INR i] ++ [vx h; vy h; vz h] ++ [sf] ++ [ev_time ev] ++
          [vx (ev_G ev); vy (ev_G ev); vz (ev_G ev)])
  | _, _ => Err IndexError
  end.
Definition phase_rows (p : polycrystal) (rho : rho_factors) (dw : R) (i : nat) (ph : phase)
  : result (list (list R)) :=
  match pc_map p with
  | MapNumpy _ => Err TypeError                          (* torch.where on an ndarray *)
  | MapTensor l =>
      let grains := where_eq l i in
      let* planes := used_planes ph in
      let* us := gather (pc_U p) grains in
      let* bs := gather (pc_eB p) grains in
      let G0 := map (fun ub => map (fun h => get_G (fst ub) (snd ub) (fst h)) planes) (combine us bs) in
      let* evs := find_solutions rho dw G0 in
      traverse (peak_row10 grains i planes) evs
  end.
(** polycrystal.py:286-346, the loop: concatenation over phases. *)
Definition rows10 (p : polycrystal) (phases : list phase) (rho : rho_factors) (dw : R)
  : result (list (list R)) :=
  let* parts := traverse (fun iph => phase_rows p rho dw (fst iph) (snd iph))
                         (combine (seq 0 (List.length phases)) phases) in
  Ok (List.concat parts).

(** Column reads of a tensor row: peaks[:, j], peaks[:, j:j+3] (polycrystal.py:349). *)
Definition rcol (r : list R) (j : nat) : R := nth j r 0.
Definition rvec (r : list R) (j : nat) : vec := V3 (rcol r j) (rcol r (j+1)) (rcol r (j+2)).
(** polycrystal.py:362, 365: peaks[:, 0].int(). *)
Definition grain_of (r : list R) : nat := trunc_nat (rcol r 0).
(** polycrystal.py:368-370 torch.arccos(sum(k_in * k_out)) with both normalised. *)
Definition two_theta (k kout : vec) : num :=
  if Req_EM_T (norm kout) 0 then NaN
  else nacos (Fin (dot (vdiv k (norm k)) (vdiv kout (norm kout)))).
Definition scherrer_num (z : bool) (vol : R) (tth : num) (wl : R) : num :=
  match tth with Fin a => scherrer z vol a wl | _ => NaN end.

(** polycrystal.py:373-387: the concatenation for one row. *)
Definition row24 (r : list R) (G kout src : vec) (lor pol vol tth sch : num) : list num :=
  map Fin r ++ map Fin (vlist G) ++ map Fin (vlist kout) ++ map Fin (vlist src)
  ++ [lor] ++ [pol] ++ [vol] ++ [tth] ++ [sch].
(** Row-wise pairing of equally long columns (no code of its own). *)
Definition zip3 {A B C} (l : list A) (m : list B) (n : list C) : list (A * B * C) :=
  combine (combine l m) n.

(** polycrystal.py:234-402 _compute_peaks. [z]: sign of zero denominators. *)
Definition compute_peaks (z : bool) (p : polycrystal) (phases : list phase) (b : beam) (m : motion)
  : result (list (list num)) :=
  let k := b_wave_vector b in
  let rho := laue_factors k (m_axis m) in
  let* rows := rows10 p phases rho (m_angle m) in
  let times := map (fun r => rcol r 6) rows in
  let* Gs := motion_rotate m (P2 (map (fun r => rvec r 7) rows)) (S1 times) in      (* 349 *)
  let Kout := map (fun G => vadd G k) (rows_of Gs) in                              (* 352 *)
  let lor := lorentz_call z k (m_axis m) Kout in                                   (* 355-357 *)
  let pol := map (polarization (b_polarization b)) Kout in                         (* 359 *)
  let* cents := gather (me_espherecentroids (pc_mesh_lab p)) (map grain_of rows) in
  let* srcs := motion_call m (P2 cents) (S1 times) in                              (* 361-363 *)
  let* vols := gather (pc_volumes p) (map grain_of rows) in                        (* 365 *)
  let tts := map (two_theta k) Kout in
  let sch := map (fun vt => scherrer_num z (fst vt) (snd vt) (b_wavelength b)) (combine vols tts) in
  let* lors := unsqueeze1 lor in                                                   (* 379 *)
  Ok (map (fun t => match t with
        | (r, (G, ko, s), (l, po, (v, ttv, sc))) => row24 r G ko s l po (Fin v) ttv sc end)
      (zip3 rows (zip3 (rows_of Gs) Kout (rows_of srcs))
                 (zip3 lors pol (zip3 vols tts sch)))).

(** polycrystal.py:168-170: source columns 16:19; a point with a non-finite
    coordinate fails every strict comparison. *)
Definition ncol (r : list num) (j : nat) : num := nth j r NaN.
Definition illuminated (b : beam) (r : list num) : bool :=
  match ncol r 16, ncol r 17, ncol r 18 with
  | Fin x, Fin y, Fin z_ => beam_contains (b_halfspaces b) (V3 x y z_)
  | _, _, _ => false
  end.

(** polycrystal.py:190-216 *)
Definition column_names : list string :=
  ["grain_index"; "phase_number"; "h"; "k"; "l"; "structure_factors"; "diffraction_times";
   "G0_x"; "G0_y"; "G0_z"; "Gx"; "Gy"; "Gz"; "K_out_x"; "K_out_y"; "K_out_z";
   "Source_x"; "Source_y"; "Source_z"; "lorentz_factors"; "polarization_factors";
   "volumes"; "2theta"; "scherrer_fwhm"; "peak_index"]%string.

(** polycrystal.py:219-230: the returned dictionary. *)
Record peaks_dict := PD {
  pd_peaks : list (list num); pd_columns : list string;
  pd_incident : vec; pd_wavelength : R; pd_axis : vec;
  pd_mesh : mesh; pd_motion : motion; pd_beam : beam }.

(** A detector enters diffract only through its wrapping cone, as a function of
    wave vector and source point (detector.py:470-508, modelled in MDetector). *)
Definition cone := vec -> vec -> num.
(** polycrystal.py:678-730 _get_bragg_angle_bounds. *)
Definition bragg_source (p : polycrystal) (b : beam) : vec :=
  let inside := filter (beam_contains (b_halfspaces b)) (me_coord (pc_mesh_lab p)) in
  match inside with [] => me_centroid (pc_mesh_lab p) | _ => mean_list inside end.
Definition bragg_bounds (p : polycrystal) (d : cone) (b : beam) (bmin : R) : result (R * R) :=
  let c := d (b_wave_vector b) (bragg_source p b) in
  let* _ := assert_ (Rleb 0 bmin) in
  let* _ := assert_ (nlt (Fin bmin) c) in
  match c with Fin r => Ok (bmin, r) | _ => Err RuntimeError (* unreachable: c is an angle *) end.

(** polycrystal.py:113-232 diffract: result and the polycrystal afterwards (its
    phases have been modified even if an exception was raised later). *)
Definition diffract (z : bool) (x : xtal) (p : polycrystal) (b : beam) (m : motion)
  (bmin bmax : R) (det : option cone) : result peaks_dict * polycrystal :=
  let bounds := match det with None => Ok (bmin, bmax) | Some d => bragg_bounds p d b bmin end in
  match bounds with
  | Err e => (Err e, p)
  | Ok (lo, hi) =>
      let phases := map (fun ph => setup_planes x ph (b_wavelength b) lo hi) (pc_phases p) in
      let p' := PC (pc_volumes p) (pc_U p) (pc_eps p) (pc_map p) phases (pc_eB p)
                   (pc_mesh_lab p) (pc_mesh_sample p) (pc_eps_sample p) (pc_U_sample p) in
      (let* rows := compute_peaks z p' phases b m in
       let kept := filter (illuminated b) rows in
       Ok (PD (mapi (fun i r => r ++ [Fin (INR i)]) kept) column_names
              (b_wave_vector b) (b_wavelength b) (m_axis m) (pc_mesh_lab p) m b), p')
  end.

(** polycrystal.py:404-433 transform. *)
Definition transform (p : polycrystal) (m : motion) (t : R) : polycrystal :=
  let Q := rod_matrix (m_axis m) (m_angle m * t) in
  PC (pc_volumes p) (map (mm Q) (pc_U p)) (map (fun e => mm (mm Q e) (mT Q)) (pc_eps p))
     (pc_map p) (pc_phases p) (pc_eB p) (mesh_update (pc_mesh_lab p) m t) (pc_mesh_sample p)
     (pc_eps_sample p) (pc_U_sample p).

(** polycrystal.py:496-542 load: a pickled polycrystal with its phase map turned
    into a tensor (the other conversions are identities on tensors). *)
Definition reload (p : polycrystal) : polycrystal :=
  PC (pc_volumes p) (pc_U p) (pc_eps p) (MapTensor (map_values (pc_map p))) (pc_phases p) (pc_eB p)
     (pc_mesh_lab p) (pc_mesh_sample p) (pc_eps_sample p) (pc_U_sample p).

(** ** Object identity.  The returned dictionary stores the polycrystal's lab mesh
    object itself (polycrystal.py:226) and transform mutates that object
    (polycrystal.py:420), whereas the constructor deep-copies its mesh
    (polycrystal.py:108-109).  Mesh objects live in a heap, addressed by position. *)
Definition heap := list mesh.
Record pc_object := PCObj { po_rest : polycrystal; po_mesh : nat }.
Record dict_object := DictObj { do_rest : peaks_dict; do_mesh : nat }.
Definition view_pc (h : heap) (o : pc_object) : option polycrystal :=
  option_map (fun me =>
    let p := po_rest o in
    PC (pc_volumes p) (pc_U p) (pc_eps p) (pc_map p) (pc_phases p) (pc_eB p) me
       (pc_mesh_sample p) (pc_eps_sample p) (pc_U_sample p)) (nth_error h (po_mesh o)).
Definition view_dict (h : heap) (o : dict_object) : option peaks_dict :=
  option_map (fun me =>
    let d := do_rest o in
    PD (pd_peaks d) (pd_columns d) (pd_incident d) (pd_wavelength d) (pd_axis d) me
       (pd_motion d) (pd_beam d)) (nth_error h (do_mesh o)).
(** polycrystal.py:76-111: allocates a fresh lab mesh. *)
Definition obj_make (x : xtal) (h : heap) (mesh_arg : nat) (o s : mats) (phs : list phase)
  (mp : option (list R)) : result (heap * pc_object) :=
  match nth_error h mesh_arg with
  | None => Err RuntimeError
  | Some me => let* p := make_polycrystal x me o s phs mp in
               Ok (h ++ [me], PCObj p (List.length h))
  end.
(** polycrystal.py:113-232. *)
Definition obj_diffract (z : bool) (x : xtal) (h : heap) (o : pc_object) (b : beam) (m : motion)
  (bmin bmax : R) (det : option cone) : option (result dict_object * pc_object) :=
  match view_pc h o with
  | None => None
  | Some p => let '(r, p') := diffract z x p b m bmin bmax det in
              Some (let* d := r in Ok (DictObj d (po_mesh o)), PCObj p' (po_mesh o))
  end.
(** polycrystal.py:404-433. *)
Definition obj_transform (h : heap) (o : pc_object) (m : motion) (t : R) : option (heap * pc_object) :=
  match view_pc h o with
  | None => None
  | Some p => let p' := transform p m t in
              Some (set_nth h (po_mesh o) (pc_mesh_lab p'), PCObj p' (po_mesh o))
  end.
