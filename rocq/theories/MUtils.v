(** * Model of further helpers of xrd_simulator/utils.py.  No proofs. *)
From Verif Require Import Vec MDetector.
From Coq Require Import String.
Open Scope R_scope.

(** ** utils.py:819-869 _diffractogram
    Pixel values, centre and bin size are real numbers (numpy floats without rounding). *)
Record image2 := Img { im_m : nat; im_n : nat; im_px : nat -> nat -> R }.
(** 856: np.arange(0, int(max_radius + 1), binsize). *)
Definition dg_bins (m n : nat) (binsize : R) : list R :=
  map (fun k => INR k * binsize) (seq 0 (Z.to_nat (ceil (INR (Nat.max m n + 1) / binsize)))).
(** np.argmin: first position of the smallest entry. *)
Fixpoint argmin_from (best : R) (at_ i : nat) (l : list R) : nat :=
  match l with
  | [] => at_
  | x :: xs => if Rlt_dec x best then argmin_from x i (S i) xs else argmin_from best at_ (S i) xs
  end.
Definition argmin (l : list R) : nat := match l with [] => 0%nat | x :: xs => argmin_from x 0 1 xs end.
(** histogram[k] += v *)
Fixpoint add_at (k : nat) (v : R) (l : list R) : list R :=
  match l, k with
  | [], _ => []
  | x :: xs, O => (x + v) :: xs
  | x :: xs, S k' => x :: add_at k' v xs
  end.
(** 860-861 *)
Definition pixel_bin (bins : list R) (cz cy : R) (i j : nat) : nat :=
  let radius := sqrt ((INR i - cz)^2 + (INR j - cy)^2) in
  argmin (map (fun b => Rabs (b - radius)) bins).
(** 857-862: the two loops over the pixels. *)
Definition dg_histogram (im : image2) (cz cy : R) (bins : list R) : list R :=
  fold_left (fun h ij => add_at (pixel_bin bins cz cy (fst ij) (snd ij)) (im_px im (fst ij) (snd ij)) h)
    (list_prod (seq 0 (im_m im)) (seq 0 (im_n im))) (repeat 0 (List.length bins)).
(** 863-868: for k in range(len - 1, 0, -1): break at the first non-zero bin. *)
Fixpoint clip_scan (h : list R) (k clip : nat) : nat :=
  match k with
  | O => clip
  | S k' => if Req_EM_T (nth k h 0) 0 then clip_scan h k' k else clip
  end.
(** 851-869.  binsize <= 0 makes numpy raise (ZeroDivisionError for 0, ValueError of argmin
    on an empty array for a negative size); the kinds are not distinguished here. *)
Definition diffractogram (im : image2) (cz cy binsize : R) : result (list R * list R) :=
  if Rle_dec binsize 0 then Err ValueError else
  let bins := dg_bins (im_m im) (im_n im) binsize in
  let h := dg_histogram im cz cy bins in
  let last := (List.length h - 1)%nat in
  let clip := Nat.min (clip_scan h last last + im_m im / 10) last in
  Ok (firstn clip bins, firstn clip h).

(** ** utils.py:872-888 _contained_by_intervals *)
Fixpoint contained_by_intervals (value : num) (intervals : list (num * num)) : bool :=
  match intervals with
  | [] => false
  | b :: rest => if (nle (fst b) value && nle value (snd b))%bool then true else contained_by_intervals value rest
  end.

(** ** utils.py:283-297 _set_xfab_logging, 300-314 _verbose_manager
    State: for each logger name, whether it is disabled. *)
Definition loggers := string -> bool.
Definition xfab_modules : list string :=
  ["xfab.tools"; "xfab.structure"; "xfab.atomlib"; "xfab.detector"; "xfab.checks"; "xfab.sg"; "xfab.sglib"; "xfab.symmetry"]%string.
Definition set_xfab_logging (disabled : bool) (st : loggers) : loggers :=
  fun name => if existsb (String.eqb name) xfab_modules then disabled else st name.
(** Python code that uses the manager: log a message with a logger, raise, or a with block
    followed by more code. *)
Inductive code :=
| Done
| Log (logger : string) (next : code)
| Raise
| With (verbose : bool) (body next : code).
(** __enter__ 308-310, __exit__ 312-314 (also run when the body raises; it returns None, so
    the exception goes on).  Result: the messages (logger, printed?), the state and whether
    an exception is under way. *)
Definition enter (verbose : bool) (st : loggers) : loggers := if verbose then set_xfab_logging false st else st.
Definition leave (verbose : bool) (st : loggers) : loggers := if verbose then set_xfab_logging true st else st.
Fixpoint run (c : code) (st : loggers) : list (string * bool) * loggers * bool :=
  match c with
  | Done => ([], st, false)
  | Raise => ([], st, true)
  | Log n next => let '(t, st', r) := run next st in ((n, negb (st n)) :: t, st', r)
  | With v body next =>
      let '(t, st1, r) := run body (enter v st) in
      let st2 := leave v st1 in
      if r then (t, st2, true)
      else let '(t', st', r') := run next st2 in ((t ++ t')%list, st', r')
  end.
(** __init__.py:3 *)
Definition after_import (st : loggers) : loggers := set_xfab_logging true st.

(** ** utils.py:891-918 _get_circumscribed_sphere_centroid
    [solve A b] is numpy.linalg.solve (external).  Points p0 and ps; B has the columns
    p0 - p, A has the rows 2 (p0 - p). *)
Definition combo (p0 : vec) (ps : list vec) (x : list R) : vec :=
  fold_right vadd vzero (map (fun px => vscale (snd px) (vsub p0 (fst px))) (combine ps x)).
Definition circum_matrix (p0 : vec) (ps : list vec) : list (list R) :=
  map (fun p => map (fun q => dot (vscale 2 (vsub p0 p)) (vsub p0 q)) ps) ps.
Definition circum_rhs (p0 : vec) (ps : list vec) : list R :=
  map (fun p => dot p0 p0 - dot p p - dot (vscale 2 (vsub p0 p)) p0) ps.
Definition circum_centroid (solve : list (list R) -> list R -> result (list R)) (p0 : vec) (ps : list vec) : result vec :=
  let* x := solve (circum_matrix p0 ps) (circum_rhs p0 ps) in Ok (vadd p0 (combo p0 ps x)).
