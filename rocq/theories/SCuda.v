(** * Specification vocabulary for the device selection (C62). *)
From Verif Require Import Num MCuda.
From Coq Require Import String Ascii.
Open Scope string_scope.

(** The ASCII characters Python's str.strip() removes: tab, line feed, vertical tab, form feed,
    carriage return, the four separators 28-31 and the space. *)
Definition blank_char (c : ascii) : Prop := In (nat_of_ascii c) [9; 10; 11; 12; 13; 28; 29; 30; 31; 32]%nat.
Fixpoint blank (s : string) : Prop := match s with EmptyString => True | String c r => blank_char c /\ blank r end.
(** [m] is the lower case word [t], in any mixture of capitals and small letters. *)
Fixpoint same_word (m t : string) : Prop :=
  match m, t with
  | EmptyString, EmptyString => True
  | String c m', String c' t' => (c = c' \/ (nat_of_ascii c + 32 = nat_of_ascii c')%nat) /\ same_word m' t'
  | _, _ => False
  end.
(** [s] is [t], up to capitals and surrounding blanks. *)
Definition means (s t : string) : Prop := exists a m b, s = a ++ m ++ b /\ blank a /\ blank b /\ same_word m t.
(** An argument the call understands, with what it asks for: Some true = the GPU, Some false =
    the CPU, None = whatever there is. *)
Inductive asks : option string -> option bool -> Prop :=
| asks_nothing : asks None None
| asks_auto s : means s "auto" -> asks (Some s) None
| asks_gpu s : means s "gpu" \/ means s "cuda" -> asks (Some s) (Some true)
| asks_cpu s : means s "cpu" -> asks (Some s) (Some false).
(** The device the user gets: the GPU only if wanted or left open, and present. *)
Definition device_for (available : bool) (wish : option bool) : string :=
  match available, wish with true, Some true | true, None => "cuda" | _, _ => "cpu" end.
(** What a verbose call prints. *)
Definition reported (available : bool) (wish : option bool) : list string :=
  match available, wish with
  | false, Some true => ["CUDA requested but not available. Falling back to CPU."; "Using device: cpu"]
  | true, Some true | true, None => ["Using device: cuda"]
  | _, _ => ["Using device: cpu"]
  end.
Definition argument_of (c : call) : option string := snd (fst c).
Definition available_in (c : call) : bool := fst (fst c).
