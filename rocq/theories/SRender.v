(** * Specification vocabulary for rendered images. *)
From Verif Require Import Vec Spec MMotion MLaue MMesh MStrain MBeam MPolycrystal SPolycrystal MDetector SDetector MRender.
Open Scope R_scope.

Definition in_image (im : frames3) (f i j : nat) : Prop := (f < f_n im)%nat /\ (i < f_h im)%nat /\ (j < f_w im)%nat.
Definition has_shape (im : frames3) (n h w : nat) : Prop := f_n im = n /\ f_h im = h /\ f_w im = w.
(** Same shape and same pixels. *)
Definition same_image (a b : frames3) : Prop :=
  has_shape a (f_n b) (f_h b) (f_w b) /\ forall f i j, in_image b f i j -> f_at a f i j = f_at b f i j.
Definition blank (im : frames3) : Prop := forall f i j, in_image im f i j -> f_at im f i j = Fin 0.
(** Sum of all pixels of one frame. *)
Definition frame_total (im : frames3) (f : nat) : num :=
  nsum (map (fun ij => f_at im f (fst ij) (snd ij)) (list_prod (seq 0 (f_h im)) (seq 0 (f_w im)))).

(** The same dictionary with other rows. *)
Definition with_peaks (pd : peaks_dict) (rows : list (list num)) : peaks_dict :=
  PD rows (pd_columns pd) (pd_incident pd) (pd_wavelength pd) (pd_axis pd) (pd_mesh pd) (pd_motion pd) (pd_beam pd).

(** Numeric value of a named column (0 when absent or not finite). *)
Definition read (pd : peaks_dict) (r : list num) (s : string) : R :=
  match field pd r s with Some (Fin x) => x | _ => 0 end.
(** Rows whose frame column is f. *)
Definition rows_in_frame (pd : peaks_dict) (f : nat) : list (list num) :=
  filter (fun r => Reqb (read pd r "frame") (INR f)) (pd_peaks pd).
(** Every row has a finite non-negative grain volume. *)
Definition volumes_ok (pd : peaks_dict) : Prop :=
  forall r, In r (pd_peaks pd) -> exists v, has pd r "volumes" v /\ 0 <= v.
(** Scattering strength of a projected row: intensity factor times volume. *)
Definition strength (pd : peaks_dict) (r : list num) : R :=
  read pd r "intensity_factors" * read pd r "volumes".

(** Sum of a function over the integers lo .. lo+n-1. *)
Definition sum_range (lo : Z) (n : nat) (g : Z -> R) : R :=
  sum_list (map (fun k => g (lo + Z.of_nat k)%Z) (seq 0 n)).
(** Value at pixel (i,j) of a Gaussian spot of width sigma at the continuous pixel
    position (zc, yc): the Gaussian is sampled on the (2*radius+1)^2 pixels around the
    nearest pixel, normalised to [total] (up to 1e-12), and values <= 1e-6 are dropped. *)
Definition gauss_at (sigma zc yc : R) (i j : Z) : R :=
  exp (- ((IZR i - zc)^2 + (IZR j - yc)^2) / (2 * sigma^2)).
Definition gauss_window_sum (sigma : R) (radius : Z) (zc yc : R) : R :=
  let n := Z.to_nat (2 * radius + 1) in
  sum_range (rint zc - radius) n (fun i => sum_range (rint yc - radius) n (fun j => gauss_at sigma zc yc i j)).
Definition gauss_spot (sigma : R) (radius : Z) (zc yc total : R) (i j : Z) : R :=
  let v := gauss_at sigma zc yc i j / (gauss_window_sum sigma radius zc yc + / 10^12) * total in
  if ((Z.abs (i - rint zc) <=? radius) && (Z.abs (j - rint yc) <=? radius))%Z
     && Rltb (/ 10^6) v then v else 0.
(** The spot of a projected row for method "micro". *)
Definition micro_sigma (d : detector) : R := sqrt ((7/10)^2 + (d_sigma d)^2).
Definition micro_radius (d : detector) : Z := Z.max 3 (ztrunc (3 * micro_sigma d) + 1).
Definition micro_spot (d : detector) (pd : peaks_dict) (r : list num) (i j : Z) : R :=
  gauss_spot (micro_sigma d) (micro_radius d) (read pd r "zd" / d_pz d) (read pd r "yd" / d_py d) (strength pd r) i j.
(** Sum of a real-valued function over an image of h x w pixels. *)
Definition pixel_sum (h w : nat) (g : Z -> Z -> R) : R := sum_range 0 h (fun i => sum_range 0 w (g i)).
(** The same table with every structure factor multiplied by c. *)
Definition scale_structure_factors (c : R) (pd : peaks_dict) : peaks_dict :=
  with_peaks pd (map (mapi (fun j x => if Nat.eqb j 5 then nmul (Fin c) x else x)) (pd_peaks pd)).
(** Size classes of the automatic method, by the "volumes" column. *)
Definition volume_of (pd : peaks_dict) (r : list num) : num :=
  match field pd r "volumes" with Some x => x | None => NaN end.
Definition is_large (macro_limit : R) (pd : peaks_dict) (r : list num) : bool := nle (Fin macro_limit) (volume_of pd r).
Definition is_small (micro_limit : R) (pd : peaks_dict) (r : list num) : bool := nlt (volume_of pd r) (Fin micro_limit).
Definition is_medium (macro_limit micro_limit : R) (pd : peaks_dict) (r : list num) : bool :=
  negb (is_large macro_limit pd r) && negb (is_small micro_limit pd r).
(** The macro limit in force. *)
Definition macro_limit_of (d : detector) (ml : option R) : R :=
  match ml with Some x => x | None => (Rmin (d_py d) (d_pz d)) ^ 3 end.
(** The table restricted to the rows that satisfy p. *)
Definition restrict (p : peaks_dict -> list num -> bool) (pd : peaks_dict) : peaks_dict :=
  with_peaks pd (filter (p pd) (pd_peaks pd)).

(** ** Kernels *)
(** A kernel whose entries are the real numbers [g a b]. *)
Definition entries (k : kernel) (g : nat -> nat -> R) : Prop :=
  forall a b, (a < k_n k)%nat -> (b < k_n k)%nat -> k_at k a b = Fin (g a b).
(** Sum of the entries at most c rows and c columns away from the centre entry. *)
Definition near (n c a : nat) : bool := (Z.abs (Z.of_nat a - Z.of_nat (n / 2)) <=? Z.of_nat c)%Z.
Definition enclosed (n : nat) (g : nat -> nat -> R) (c : nat) : R :=
  sum_list (map (fun a => sum_list (map (fun b => if near n c a && near n c b then g a b else 0) (seq 0 n))) (seq 0 n)).
(** Sum of all entries. *)
Definition entry_total (n : nat) (g : nat -> nat -> R) : R :=
  sum_list (map (fun a => sum_list (map (g a) (seq 0 n))) (seq 0 n)).
(** Value, row and column of a deposit. *)
Definition dep_val (dp : deposit) : num := snd dp.
Definition dep_row (dp : deposit) : Z := snd (fst (fst dp)).
Definition dep_col (dp : deposit) : Z := snd (fst dp).
Definition dep_frame (dp : deposit) : Z := fst (fst (fst dp)).
