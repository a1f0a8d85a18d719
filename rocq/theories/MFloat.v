(** * Rounded arithmetic: the pixel count of detector.py:147-159, 417 in IEEE
    double precision.  The IEEE operations are those of the standard library's
    Coq.Floats.SpecFloat (53-bit mantissa, emax 1024); no proofs in this file. *)
From Coq Require Import ZArith Floats.SpecFloat.
Open Scope Z_scope.

(** Exact conversion of a small positive integer (|n| < 2^53). *)
Definition f64_of_Z (n : Z) : spec_float := binary_normalize 53 1024 n 0 false.
Definition f64_div (x y : spec_float) : spec_float := SFdiv 53 1024 x y.
(** std::ceil of a finite double. *)
Definition f64_ceil (x : spec_float) : Z :=
  match x with
  | S754_finite s m e =>
      let v := if s then Z.neg m else Z.pos m in
      if 0 <=? e then v * 2 ^ e else - ((- v) / 2 ^ (- e))
  | _ => 0
  end.
(** detector.py:158 self.zmax / n_z, then 417 torch.arange(0, zmax, pixel_size):
    its length is ceil(zmax / pixel_size). *)
Definition f64_rows (zmax n : Z) : Z :=
  f64_ceil (f64_div (f64_of_Z zmax) (f64_div (f64_of_Z zmax) (f64_of_Z n))).
