(** * Model of xrd_simulator/cuda.py.  No proofs. *)
From Verif Require Import Num.
From Coq Require Import String Ascii.
Open Scope string_scope.

(** str.lower and str.strip, on ASCII strings. *)
Definition lower_char (c : ascii) : ascii :=
  let n := nat_of_ascii c in if (Nat.leb 65 n && Nat.leb n 90)%bool then ascii_of_nat (n + 32) else c.
Fixpoint lower (s : string) : string :=
  match s with EmptyString => EmptyString | String c r => String (lower_char c) (lower r) end.
Definition is_space (c : ascii) : bool :=
  let n := nat_of_ascii c in (Nat.eqb n 32 || (Nat.leb 9 n && Nat.leb n 13) || (Nat.leb 28 n && Nat.leb n 31))%bool.
Fixpoint lstrip (s : string) : string :=
  match s with String c r => if is_space c then lstrip r else s | EmptyString => EmptyString end.
Fixpoint rstrip (s : string) : string :=
  match s with
  | EmptyString => EmptyString
  | String c r => match rstrip r with
                  | EmptyString => if is_space c then EmptyString else String c EmptyString
                  | r' => String c r'
                  end
  end.
Definition strip (s : string) : string := rstrip (lstrip s).

(** Module state: cuda._device and torch's default device; 3-5: the initial state. *)
Record devices := Dev { selected : string; torch_default : string }.
Definition initial : devices := Dev "cpu" "cpu".

(** 8-65 configure_device.  [argument] is None or str(device); [available] is
    torch.cuda.is_available() during the call.  Result: the returned device, the new state
    and the printed lines. *)
Definition configure_device (available : bool) (argument : option string) (verbose : bool) (st : devices)
  : result (string * devices * list string) :=
  let device := option_map (fun s => strip (lower s)) argument in
  let wanted :=
    match device with
    | None => Ok available
    | Some s => if (s =? "auto") then Ok available
                else if ((s =? "gpu") || (s =? "cuda"))%bool then Ok true
                else if (s =? "cpu") then Ok false
                else Err ValueError
    end in
  let* want_gpu := wanted in
  let fallback := (want_gpu && negb available && verbose)%bool in
  let dev := if (want_gpu && available)%bool then "cuda" else "cpu" in
  Ok (dev, Dev dev dev,
      ((if fallback then ["CUDA requested but not available. Falling back to CPU."] else [])
       ++ (if verbose then [("Using device: " ++ dev)%string] else []))%list).
(** 68-70 *)
Definition get_selected_device (st : devices) : string := selected st.

(** A history of calls, each with the availability at that moment; an exception leaves the
    state as it was and the caller goes on. *)
Definition call := (bool * option string * bool)%type.
Definition step (st : devices) (c : call) : devices :=
  let '(available, argument, verbose) := c in
  match configure_device available argument verbose st with Ok (_, st', _) => st' | Err _ => st end.
Definition history (cs : list call) : devices := fold_left step cs initial.
