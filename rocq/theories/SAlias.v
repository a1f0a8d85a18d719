(** * Specification vocabulary: what a caller may do to its own arrays. *)
From Verif Require Import Vec MAlias MMesh.
(** A caller that writes to its arrays, in order. *)
Definition caller_writes := list (nat * list vec).
Fixpoint after (st : store) (ws : caller_writes) : store :=
  match ws with [] => st | (a, v) :: ws => after (write st a v) ws end.
(** The caller writes only to arrays that existed before the object was built. *)
Definition own_arrays (st0 : store) (ws : caller_writes) : Prop := forall a v, In (a, v) ws -> (a < List.length st0)%nat.
Definition valid (st : store) (x : arg) : Prop := match x with Float64 a => (a < List.length st)%nat | Other _ => True end.
Definition is_copy (x : arg) : Prop := exists v, x = Other v.
(** A history in which the caller writes to its arrays and operates on a mesh, in any order. *)
Inductive event := Write (a : nat) (v : list vec) | Op (o : mesh_op).
Fixpoint history (st : store) (m : mesh_obj) (es : list event) : result (store * mesh_obj) :=
  match es with
  | [] => Num.Ok (st, m)
  | Write a v :: es => history (write st a v) m es
  | Op o :: es => match mesh_do st m o with Num.Ok (st', m') => history st' m' es | Num.Err e => Num.Err e end
  end.
Definition ops_of (es : list event) : list mesh_op := flat_map (fun e => match e with Op o => [o] | _ => [] end) es.
Definition writes_of (es : list event) : caller_writes := flat_map (fun e => match e with Write a v => [(a, v)] | _ => [] end) es.
