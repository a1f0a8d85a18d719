(** * Specification vocabulary for the helpers of utils.py. *)
From Verif Require Import Vec MDetector MUtils.
From Coq Require Import String.
Open Scope R_scope.

(** ** Radial integration: rings of width [binsize] centred at 0, binsize, 2 binsize, ... *)
Definition pixel_radius (cz cy : R) (i j : nat) : R := sqrt ((INR i - cz)^2 + (INR j - cy)^2).
(** Number of rings for an m x n image: multiples of binsize below max(m,n) + 1. *)
Definition ring_count (m n : nat) (binsize : R) : nat := Z.to_nat (ceil (INR (Nat.max m n + 1) / binsize)).
(** Ring of a radius: the nearest ring centre, the lower one on a tie, and the last ring for
    everything further out. *)
Definition ring_index (count : nat) (binsize r : R) : nat := Nat.min (count - 1) (Z.to_nat (ceil (r / binsize - 1/2))).
Definition image_sum (im : image2) (keep : nat -> nat -> bool) : R :=
  sum_list (map (fun ij => if keep (fst ij) (snd ij) then im_px im (fst ij) (snd ij) else 0)
    (list_prod (seq 0 (im_m im)) (seq 0 (im_n im)))).
Definition image_total (im : image2) : R := image_sum im (fun _ _ => true).
Definition ring_total (im : image2) (cz cy binsize : R) (k : nat) : R :=
  image_sum im (fun i j => Nat.eqb (ring_index (ring_count (im_m im) (im_n im) binsize) binsize (pixel_radius cz cy i j)) k).

(** ** Logging *)
(** The loggers of xfab that the package switches on and off. *)
Definition xfab_loggers : list string :=
  ["xfab.tools"; "xfab.structure"; "xfab.atomlib"; "xfab.detector"; "xfab.checks"; "xfab.sg"; "xfab.sglib"; "xfab.symmetry"]%string.
Definition xfab_enabled (st : loggers) : Prop := forall n, In n xfab_loggers -> st n = false.
Definition xfab_disabled (st : loggers) : Prop := forall n, In n xfab_loggers -> st n = true.
(** The same state for all other loggers. *)
Definition same_others (a b : loggers) : Prop := forall n, ~ In n xfab_loggers -> a n = b n.
Definition messages (c : code) (st : loggers) : list (string * bool) := fst (fst (run c st)).
Definition final (c : code) (st : loggers) : loggers := snd (fst (run c st)).
Definition raises (c : code) (st : loggers) : bool := snd (run c st).

(** Code without a verbose block. *)
Fixpoint verbose_free (c : code) : bool :=
  match c with Done | Raise => true | Log _ k => verbose_free k | With v b k => negb v && verbose_free b && verbose_free k end.

(** ** Spheres through points *)
Definition solves (A : list (list R)) (b x : list R) : Prop :=
  List.length x = List.length A /\
  map (fun row => sum_list (map (fun rx => fst rx * snd rx) (combine row x))) A = b.
(** c lies in the affine span of p0 and ps. *)
Definition in_span (p0 : vec) (ps : list vec) (c : vec) : Prop :=
  exists w, List.length w = List.length ps /\
    c = vadd p0 (fold_right vadd vzero (map (fun pw => vscale (snd pw) (vsub (fst pw) p0)) (combine ps w))).
