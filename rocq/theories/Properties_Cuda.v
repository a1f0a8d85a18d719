(** Generated by tools/gen_properties.py from PCuda.v: the property theorems,
    verbatim, each closed by [exact]. Contains nothing else. *)
From Verif Require Import Num MCuda SCuda.
From Coq Require Import String Ascii.
From Verif Require Import PCuda.
Open Scope string_scope.

(** An understood argument selects, and makes torch's default, the device it asks for when
    present and the CPU otherwise, whatever was selected before; a verbose call says which, and
    warns when a requested GPU is missing; a quiet one prints nothing. *)
Theorem C62_selects : forall available argument wish verbose st, asks argument wish ->
  configure_device available argument verbose st
    = Ok (device_for available wish, Dev (device_for available wish) (device_for available wish),
          if verbose then reported available wish else []).
Proof. exact pC62_selects. Qed.
Print Assumptions C62_selects.

(** Anything else raises ValueError. *)
Theorem C62_rejects : forall available argument verbose st, (forall wish, ~ asks argument wish) -> configure_device available argument verbose st = Err ValueError.
Proof. exact pC62_rejects. Qed.
Print Assumptions C62_rejects.

(** After any history the last understood call alone decides; without one it is the CPU. *)
Theorem C62_last_call : forall before c after wish, asks (argument_of c) wish ->
  (forall c' wish', In c' after -> ~ asks (argument_of c') wish') ->
  get_selected_device (history (before ++ c :: after)) = device_for (available_in c) wish.
Proof. exact pC62_last_call. Qed.
Print Assumptions C62_last_call.

Theorem C62_no_call : forall calls, (forall c wish, In c calls -> ~ asks (argument_of c) wish) -> get_selected_device (history calls) = "cpu".
Proof. exact pC62_no_call. Qed.
Print Assumptions C62_no_call.

(** Torch's default device never differs from the selected one; the GPU is selected only if
    it was present when selected. *)
Theorem C62_consistent : forall calls, torch_default (history calls) = get_selected_device (history calls) /\
  (get_selected_device (history calls) = "cpu" \/ get_selected_device (history calls) = "cuda" /\ exists c, In c calls /\ available_in c = true).
Proof. exact pC62_consistent. Qed.
Print Assumptions C62_consistent.

(** Capitals and blanks do not matter: " GPU " asks for the GPU; "gpus" is not understood. *)
Example C62_words_nonvacuous : asks (Some " GPU ") (Some true) /\ (forall w, ~ asks (Some "gpus") w) /\ device_for false (Some true) = "cpu".
Proof. exact xC62_words. Qed.

