(** * Rounded arithmetic: the pixel count and the frame bins of detector.py in
    IEEE double precision (the default dtype set at detector.py:28).
    The operations are those of Coq.Floats.SpecFloat (53-bit mantissa, emax 1024),
    round to nearest even; no proofs in this file. *)
From Coq Require Import ZArith List Floats.SpecFloat.
From Verif Require Import MFloat.
Import ListNotations.
Open Scope Z_scope.

Definition f64_mul (x y : spec_float) : spec_float := SFmul 53 1024 x y.
Definition f64_add (x y : spec_float) : spec_float := SFadd 53 1024 x y.
Definition f64_sub (x y : spec_float) : spec_float := SFsub 53 1024 x y.

(** detector.py:158 self.zmax / n_z, then 417 torch.arange(0, zmax, pixel_size), whose
    length is ceil((end - start) / step), for any measured length zmax. *)
Definition f64_grid_rows (zmax : spec_float) (n : Z) : Z :=
  f64_ceil (f64_div zmax (f64_div zmax (f64_of_Z n))).

(** detector.py:160-166 pixel_size given, then 417: the number of rows. *)
Definition f64_pixel_rows (zmax pixel : spec_float) : Z := f64_ceil (f64_div zmax pixel).

(** detector.py:701 torch.linspace(0, 1, steps = n + 1), entry k: the step is
    (end - start) / (steps - 1); entries below steps / 2 are start + step * k, the
    others end - step * (steps - k - 1) (torch's kernel; its vectorised variant is
    taken to round the same way). *)
Definition f64_edge (n k : Z) : spec_float :=
  let step := f64_div (f64_sub (f64_of_Z 1) (f64_of_Z 0)) (f64_of_Z n) in
  if k <? (n + 1) / 2 then f64_add (f64_of_Z 0) (f64_mul step (f64_of_Z k))
  else f64_sub (f64_of_Z 1) (f64_mul step (f64_of_Z (n - k))).

(** detector.py:695-707: frame of a time.  torch.bucketize looks up the number of edges
    strictly below the time (binary search over ascending edges; that they ascend is
    proved in PFloat2.v). *)
Definition f64_frame (n : Z) (t : spec_float) : Z :=
  if n <=? 1 then 0
  else
    let below := List.length (filter (fun e => SFltb e t)
                   (map (fun k => f64_edge n (Z.of_nat k)) (seq 0 (Z.to_nat n + 1)))) in
    Z.max 0 (Z.min (Z.of_nat below - 1) (n - 1)).
