(** * Specification vocabulary: blurred images and thickness profiles (C46, C79). *)
From Verif Require Import Vec Spec MMotion MLaue MMesh MStrain MBeam MPolycrystal SPolycrystal MDetector SDetector MClip SClip MRender SRender SMacro.
Open Scope R_scope.

Definition inside_image (h w : nat) (i j : Z) : bool := ((0 <=? i) && (i <? Z.of_nat h) && (0 <=? j) && (j <? Z.of_nat w))%Z.
(** Value at (i,j) of the picture g on h x w pixels (zero outside) blurred with the Gaussian
    of width s cut off at the square of half-width r and normalised to one. *)
Definition blur (s : R) (r : Z) (h w : nat) (g : Z -> Z -> R) (i j : Z) : R :=
  let n := Z.to_nat (2 * r + 1) in
  sum_range (i - r) n (fun u => sum_range (j - r) n (fun v =>
     gauss_at s (IZR i) (IZR j) u v * (if inside_image h w u v then g u v else 0))) /
  sum_range (- r) n (fun u => sum_range (- r) n (fun v => gauss_at s 0 0 u v)).

(** Pixel rows bx_r0 .. bx_r1 - 1 and columns bx_c0 .. bx_c1 - 1. *)
Record box := Box { bx_r0 : Z; bx_r1 : Z; bx_c0 : Z; bx_c1 : Z }.
Definition box_has (b : box) (i j : Z) : bool := ((bx_r0 b <=? i) && (i <? bx_r1 b) && (bx_c0 b <=? j) && (j <? bx_c1 b))%Z.
Definition box_sum (b : box) (g : Z -> Z -> R) : R :=
  sum_range (bx_r0 b) (Z.to_nat (bx_r1 b - bx_r0 b)) (fun i => sum_range (bx_c0 b) (Z.to_nat (bx_c1 b - bx_c0 b)) (g i)).
(** The corner of pixel (i,j) that is nearest to detector corner 0. *)
Definition pixel_corner (d : detector) (i j : Z) : vec :=
  surface_point (d_c0 d) (d_c1 d) (d_c2 d) (IZR i * d_pz d) (IZR j * d_py d).
(** Lengths up to 1e-12 count as zero. *)
Definition cut_off (L : R) : R := if Rlt_dec (/ 10^12) L then L else 0.
(** The row's lit part has volume vol, projects to the pixels of b (more than four), has no face
    along the ray, and T i j is its thickness along the scattered ray through the corner of
    pixel (i,j), not zero everywhere. *)
Definition profiled (e : render_env) (d : detector) (pd : peaks_dict) (r : list num) (vol : R) (b : box) (T : Z -> Z -> R) : Prop :=
  exists hl, lit_part e pd r hl /\ h_volume hl = vol /\ footprint e d pd r hl (bx_r0 b) (bx_r1 b) (bx_c0 b) (bx_c1 b) /\
    (4 < (bx_r1 b - bx_r0 b) * (bx_c1 b - bx_c0 b))%Z /\
    unit_normals (h_eqs hl) /\ (forall h, In h (h_eqs hl) -> dot (hs_n h) (ray_dir pd r) <> 0) /\
    (forall i j, box_has b i j = true -> exists L, length_inside (h_eqs hl) (pixel_corner d i j) (ray_dir pd r) L /\ T i j = cut_off L) /\
    exists i j, box_has b i j = true /\ 0 < T i j.
(** The row's intensity times lit volume times pixel area, spread in proportion to T. *)
Definition thickness_share (d : detector) (pd : peaks_dict) (r : list num) (vol : R) (b : box) (T : Z -> Z -> R) (i j : Z) : R :=
  if box_has b i j then read pd r "intensity_factors" * vol * (d_pz d * d_py d) * (T i j / box_sum b T) else 0.
