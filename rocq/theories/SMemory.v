(** * Specification vocabulary of the memory helpers (C86). *)
From Verif Require Import Num MCuda MMemory.
From Coq Require Import String Permutation Sorting.Sorted.
Open Scope list_scope.
Open Scope R_scope.

(** No figure is negative and no part exceeds its whole. *)
Definition sane (m : machine) : Prop :=
  (forall total available, m_psutil m = Some (total, available) -> 0 <= available <= total) /\
  (forall k total allocated reserved, m_gpu m k = Some (total, allocated, reserved) -> 0 <= allocated <= reserved /\ reserved <= total).
(** The tensors among the objects that the two flags admit. *)
Definition tensors_of (objects : list object) : list tensor :=
  flat_map (fun o => match o with ATensor t => [t] | _ => [] end) objects.
Definition admits (include_cpu include_cuda : bool) (t : tensor) : bool :=
  (implb (String.eqb (t_kind t) "cpu") include_cpu && implb (String.eqb (t_kind t) "cuda") include_cuda)%bool.
Definition tracked (include_cpu include_cuda : bool) (objects : list object) : list tensor :=
  filter (admits include_cpu include_cuda) (tensors_of objects).
Definition is_entry (x : printed) : bool := match x with Entry _ _ _ => true | _ => false end.
(** [l] holds the n largest of [all], largest first. *)
Definition largest (n : nat) (all l : list tensor) : Prop :=
  List.length l = Nat.min n (List.length all) /\
  StronglySorted (fun a b => (nbytes b <= nbytes a)%nat) l /\
  exists rest, Permutation (l ++ rest) all /\ forall a b, In a l -> In b rest -> (nbytes b <= nbytes a)%nat.
Definition entries (p : list printed) : list tensor := flat_map (fun x => match x with Entry _ t _ => [t] | _ => [] end) p.
Definition total_bytes (l : list tensor) : R := sum_list (map (fun t => INR (nbytes t)) l).
(** str(device) of a CPU tensor, and of no other one. *)
Definition named_by_kind (t : tensor) : Prop := on_cpu t = true <-> t_kind t = "cpu"%string.
