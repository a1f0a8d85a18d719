(** * Specification vocabulary for phases with CIF files and for shared phases. *)
From Verif Require Import Vec Spec MLaue MMesh MPolycrystal MStructure MPhase SStructure.
From Coq Require Import String.
Open Scope R_scope.

(** The crystal structure described by the first block of the phase's CIF file, together with
    its unit cell. *)
Definition crystal_of (t : tables) (dk : disk) (ph : phase) (st : structure) (u : cell6) : Prop :=
  exists cif name b others ops a be c al bt ga more,
    ph_cif ph = Some cif /\ dk cif = Ok ((name, Ok b) :: others) /\ tb_ops t (ph_sg ph) = Ok ops /\
    ph_cell ph = (a :: be :: c :: al :: bt :: ga :: more)%list /\ u = Cell a be c al bt ga /\
    st = Structure (cb_atoms b) (cb_dispersion b) ops (tb_formfactor t) (tb_cellstar t).
(** A phase needs no file, or its file has a readable first block with at least one atom whose
    atom types are all known. *)
Definition readable (t : tables) (dk : disk) (ph : phase) : Prop :=
  ph_cif ph = None \/ exists st u, crystal_of t dk ph st u /\ st_atoms st <> [] /\ known_types st.
(** The reflections between two Bragg angles at a wavelength. *)
Definition planes_between (t : tables) (ph : phase) (wl lo hi : R) : list vec :=
  tb_genhkl t (ph_cell ph) (sin lo / wl) (sin hi / wl) (ph_sg ph).
(** The three things that define a phase. *)
Definition same_material (ph ph' : phase) : Prop :=
  ph_cell ph' = ph_cell ph /\ ph_sg ph' = ph_sg ph /\ ph_cif ph' = ph_cif ph.
(** The file-independent view of the crystallography used by the single-polycrystal model
    (the value for an unreadable file is never used). *)
Definition crystallography (t : tables) (dk : disk) : xtal :=
  Xtal (tb_form_b t) (tb_genhkl t)
    (fun hkl cell sg cif => match structure_batch t dk hkl cell sg cif with Ok F => F | Err _ => map (fun _ => (0, 0)) hkl end).
(** o is a transform call on polycrystal k. *)
Definition moves (k : nat) (o : shared_op) : bool :=
  match o with ShTransform j _ _ => Nat.eqb j k | _ => false end.
(** Polycrystal number k after its own transforms in the history, on phases of its own. *)
Definition alone (k : nat) (ops : list shared_op) (p : polycrystal) : polycrystal :=
  fold_left (fun p o => match o with ShTransform j m time => if Nat.eqb j k then transform p m time else p | _ => p end) ops p.
