(** * Model of phase.py with failing CIF files, and of Phase objects shared between
    polycrystals.  No proofs in this file. *)
From Verif Require Import Vec MMotion MLaue MMesh MScattering MBeam MPolycrystal MStructure.
From Coq Require Import String.
Open Scope R_scope.

(** What xfab's CIFread (structure_factors.py:160) makes of one block of a CIF file. *)
Record cif_block := Block { cb_atoms : list atom; cb_dispersion : string -> option (R * R) }.
(** A CIF file: its named blocks in the order of keys(); CIFread of a block may raise. *)
Definition cif_file := list (string * result cif_block).
(** Reading files by path; what a missing or unreadable file raises is external. *)
Definition disk := string -> result cif_file.
(** utils.py:89-92 _cif_open: cif_dict[list(cif_dict.keys())[0]], and CIFread of that block
    (structure_factors.py:158-163). *)
Definition cif_open (f : cif_file) : result cif_block :=
  match f with [] => Err IndexError | (_, b) :: _ => b end.

(** The xfab routines that do not depend on files: B matrix and reflection list (as in
    MPolycrystal), the operations of a space group (an unknown name may raise), the form factor
    table and the reciprocal cell lengths. *)
Record tables := Tables {
  tb_form_b : list R -> mat;
  tb_genhkl : list R -> R -> R -> string -> list vec;
  tb_ops : string -> result (list (mat * vec));
  tb_formfactor : string -> option (list R * list R * R);
  tb_cellstar : cell6 -> vec }.

(** structure_factors.py:42-45: unit_cell[0] ... unit_cell[5]. *)
Definition cell_of (l : list R) : result cell6 :=
  match l with
  | a :: b :: c :: al :: be :: ga :: _ => Ok (Cell a b c al be ga)
  | _ => Err IndexError
  end.
(** structure_factors.py:118-316 compute_structure_factors_batch, from the path of the file. *)
Definition structure_batch (t : tables) (dk : disk) (hkl : list vec) (cell : list R) (sg cif : string)
  : result (list (R * R)) :=
  let* f := dk cif in
  let* b := cif_open f in
  let* ops := tb_ops t sg in
  let* u := cell_of cell in
  structure_factors (Structure (cb_atoms b) (cb_dispersion b) ops (tb_formfactor t) (tb_cellstar t)) u hkl.

(** phase.py:100-128 _setup_diffracting_planes: the attribute miller_indices is assigned first
    (102); if the structure factors raise, structure_factors keeps its old value.  The object
    afterwards, and the exception, if any. *)
Definition setup_object (t : tables) (dk : disk) (ph : phase) (wavelength bmin bmax : R) : phase * option exn :=
  let hkl := tb_genhkl t (ph_cell ph) (sin bmin / wavelength) (sin bmax / wavelength) (ph_sg ph) in
  match ph_cif ph with
  | None => (Phase (ph_cell ph) (ph_sg ph) (ph_cif ph) (Some hkl) (ph_sf ph), None)
  | Some cif =>
      match structure_batch t dk hkl (ph_cell ph) (ph_sg ph) cif with
      | Ok F => (Phase (ph_cell ph) (ph_sg ph) (ph_cif ph) (Some hkl) (Some F), None)
      | Err e => (Phase (ph_cell ph) (ph_sg ph) (ph_cif ph) (Some hkl) (ph_sf ph), Some e)
      end
  end.
(** polycrystal.py:159-162: the loop over self.phases.  Phase objects live in a heap (the list
    [h]), a polycrystal holds references to them (positions), because polycrystal.py:621-630
    stores the caller's objects without copying. *)
Fixpoint setup_all (t : tables) (dk : disk) (h : list phase) (idx : list nat) (wl bmin bmax : R)
  : list phase * option exn :=
  match idx with
  | [] => (h, None)
  | i :: rest =>
      match nth_error h i with
      | None => (h, Some IndexError)                      (* no such object: not reachable *)
      | Some ph =>
          let '(ph', e) := setup_object t dk ph wl bmin bmax in
          match e with
          | None => setup_all t dk (set_nth h i ph') rest wl bmin bmax
          | Some _ => (set_nth h i ph', e)
          end
      end
  end.

Definition with_phases (p : polycrystal) (phs : list phase) : polycrystal :=
  PC (pc_volumes p) (pc_U p) (pc_eps p) (pc_map p) phs (pc_eB p)
     (pc_mesh_lab p) (pc_mesh_sample p) (pc_eps_sample p) (pc_U_sample p).
(** A polycrystal whose phases are the objects at positions [idx]; the phases stored in [p] itself are not used. *)
Definition view (h : list phase) (q : polycrystal * list nat) : result polycrystal :=
  let* phs := gather h (snd q) in Ok (with_phases (fst q) phs).

(** polycrystal.py:113-232 diffract on shared Phase objects, with the files [dk] found at the time
    of the call: the result and the Phase objects afterwards. *)
Definition shared_diffract (z : bool) (t : tables) (dk : disk) (h : list phase) (q : polycrystal * list nat)
  (b : beam) (m : motion) (bmin bmax : R) (det : option cone) : result peaks_dict * list phase :=
  match (match det with None => Ok (bmin, bmax) | Some d => bragg_bounds (fst q) d b bmin end) with
  | Err e => (Err e, h)
  | Ok (lo, hi) =>
      match setup_all t dk h (snd q) (b_wavelength b) lo hi with
      | (h', Some e) => (Err e, h')
      | (h', None) =>
          (let* p := view h' q in
           let* rows := compute_peaks z p (pc_phases p) b m in
           let kept := filter (illuminated b) rows in
           Ok (PD (mapi (fun i r => (r ++ [Fin (INR i)])%list) kept) column_names
                  (b_wave_vector b) (b_wavelength b) (m_axis m) (pc_mesh_lab p) m b), h')
      end
  end.

(** A program with several polycrystals that share Phase objects: each call names the
    polycrystal; the contents of the files may be different at every call. *)
Record shared := Shared { sh_phases : list phase; sh_pcs : list (polycrystal * list nat) }.
Inductive shared_op :=
| ShTransform (k : nat) (m : motion) (time : R)
| ShDiffract (k : nat) (dk : disk) (b : beam) (m : motion) (lo hi : R) (det : option cone).
(** polycrystal.py:404-433 transform and 113-232 diffract, on polycrystal number k. *)
Definition shared_step (z : bool) (t : tables) (s : shared) (o : shared_op) : shared :=
  match o with
  | ShTransform k m time =>
      match nth_error (sh_pcs s) k with
      | Some (p, idx) => Shared (sh_phases s) (set_nth (sh_pcs s) k (transform p m time, idx))
      | None => s
      end
  | ShDiffract k dk b m lo hi det =>
      match nth_error (sh_pcs s) k with
      | Some q => Shared (snd (shared_diffract z t dk (sh_phases s) q b m lo hi det)) (sh_pcs s)
      | None => s
      end
  end.
Definition shared_run (z : bool) (t : tables) (ops : list shared_op) (s : shared) : shared :=
  fold_left (shared_step z t) ops s.
(** The result of calling diffract on polycrystal k in a given state. *)
Definition call_diffract (z : bool) (t : tables) (s : shared) (k : nat) (dk : disk) (b : beam) (m : motion)
  (lo hi : R) (det : option cone) : option (result peaks_dict) :=
  option_map (fun q => fst (shared_diffract z t dk (sh_phases s) q b m lo hi det)) (nth_error (sh_pcs s) k).
