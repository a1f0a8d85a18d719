(** * Vocabulary: what a double stands for. *)
From Coq Require Import ZArith Reals Floats.SpecFloat.
Open Scope R_scope.
(** A finite IEEE double: a zero, or a sign, a mantissa of at most 53 bits and an
    exponent in range. *)
Definition finite_double (x : spec_float) : Prop :=
  valid_binary 53 1024 x = true /\
  match x with S754_zero _ | S754_finite _ _ _ => True | _ => False end.
(** The real number it stands for. *)
Definition double_value (x : spec_float) : R :=
  match x with
  | S754_finite true m e => - IZR (Zpos m) * powerRZ 2 e
  | S754_finite false m e => IZR (Zpos m) * powerRZ 2 e
  | _ => 0
  end.
