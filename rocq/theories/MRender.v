(** * Model of the rendering half of xrd_simulator/detector.py: render (232-380),
    _render_gauss_peaks (761-944), _estimate_airy_kernel_memory .. _deposit_kernels_batch
    (947-1428), _render_projected_volumes and _project_convex_hull (1431-1688), the
    point-spread function (1690-1759).  No proofs in this file.

    Pixel values are [num] (exact reals and the IEEE specials), so NaN frames are
    representable.  Rounding (.float(), render_dtype) is not modelled. *)
From Verif Require Import Vec MMotion MLaue MMesh MScattering MStrain MBeam MPolycrystal MDetector MClip.
Open Scope R_scope.

(** ** Image tensors *)
(** A (frames, height, width) tensor; [f_at f i j] is meaningful in range only. *)
Record frames3 := Fr { f_n : nat; f_h : nat; f_w : nat; f_at : nat -> nat -> nat -> num }.
Definition zeros3 (n h w : nat) : frames3 := Fr n h w (fun _ _ _ => Fin 0).
(** tensor.sum(). [nadd] is associative and commutative, so the order is irrelevant. *)
Definition nsum (l : list num) : num := fold_right nadd (Fin 0) l.
(** Index normalisation of torch/numpy advanced indexing: negative indices wrap. *)
Definition wrap (n : nat) (i : Z) : option nat :=
  if ((0 <=? i) && (i <? Z.of_nat n))%Z then Some (Z.to_nat i)
  else if ((- Z.of_nat n <=? i) && (i <? 0))%Z then Some (Z.to_nat (i + Z.of_nat n))
  else None.
(** One value to be added at (frame, row, column). *)
Definition deposit := (Z * Z * Z * num)%type.
Definition place (n h w : nat) (d : deposit) : result (nat * nat * nat * num) :=
  let '(f, i, j, v) := d in
  match wrap n f, wrap h i, wrap w j with
  | Some f', Some i', Some j' => Ok (f', i', j', v)
  | _, _, _ => Err IndexError
  end.
Definition at_pixel (f i j : nat) (d : nat * nat * nat * num) : bool :=
  let '(f', i', j', _) := d in Nat.eqb f f' && Nat.eqb i i' && Nat.eqb j j'.
(** tensor.index_put_((f, i, j), v, accumulate=True), detector.py:936-940, 1421-1425. *)
Definition index_put (im : frames3) (ds : list deposit) : result frames3 :=
  let* ps := traverse (place (f_n im) (f_h im) (f_w im)) ds in
  Ok (Fr (f_n im) (f_h im) (f_w im)
        (fun f i j => nadd (f_at im f i j) (nsum (map snd (filter (at_pixel f i j) ps))))).

(** Column read of a value that is finite on every table returned by project
    (a non-finite value is read as 0: not modelled). *)
Definition fval (x : num) : R := match x with Fin r => r | _ => 0 end.
Definition fcol (r : list num) (j : nat) : R := fval (ncol r j).
Definition fvec (r : list num) (j : nat) : vec := V3 (fcol r j) (fcol r (j+1)) (fcol r (j+2)).
(** torch.arange(-r, r + 1) for an integer r. *)
Definition zrange (lo : Z) (n : nat) : list Z := map (fun k => (lo + Z.of_nat k)%Z) (seq 0 n).
Definition grid {A} (l : list A) : list (A * A) := list_prod l l.

(** ** Gaussian peaks ('micro'), detector.py:761-944 *)
(** 852-853 *)
Definition g_sigma (d : detector) : R := sqrt ((7/10)^2 + (d_sigma d)^2).
Definition g_radius (d : detector) : Z := Z.max 3 (ztrunc (3 * g_sigma d) + 1).
(** 856-864: the flattened offset grid. *)
Definition g_offsets (d : detector) : list (Z * Z) :=
  grid (zrange (- g_radius d) (Z.to_nat (2 * g_radius d + 1))).
(** 836-841: continuous and rounded pixel coordinates. *)
Definition pos_z (d : detector) (r : list num) : R := fcol r 25 / d_pz d.
Definition pos_y (d : detector) (r : list num) : R := fcol r 26 / d_py d.
(** 908-911: unnormalised weight of an offset. *)
Definition g_weight (d : detector) (r : list num) (o : Z * Z) : R :=
  let dz := IZR (rint (pos_z d r) + fst o) - pos_z d r in
  let dy := IZR (rint (pos_y d r) + snd o) - pos_y d r in
  exp (- (dz^2 + dy^2) / (2 * (g_sigma d)^2)).
(** 844-846: intensity_factors * volumes. *)
Definition peak_intensity (r : list num) : num := nmul (ncol r 29) (ncol r 21).
(** 904-934: the deposits of one peak: weights normalised with the 1e-12 guard,
    scaled, kept when in range and > 1e-6. *)
Definition g_deposits (d : detector) (r : list num) : list deposit :=
  let s := sum_list (map (g_weight d r) (g_offsets d)) in
  filter (fun dp => let '(_, i, j, v) := dp in
            ((0 <=? i) && (i <? Z.of_nat (d_nz d)) && (0 <=? j) && (j <? Z.of_nat (d_ny d)))%Z
            && nlt (Fin (/ 10^6)) v)
    (map (fun o => (ztrunc (fcol r 28), (rint (pos_z d r) + fst o)%Z, (rint (pos_y d r) + snd o)%Z,
                    nmul (Fin (g_weight d r o / (s + / 10^12))) (peak_intensity r)))
         (g_offsets d)).
(** 871-881: batch size from the free memory figure (GB, but used as bytes). *)
Definition g_batch_size (free : R) : nat :=
  let target := if Rlt_dec 0 free then free * (1/2) else 0 in
  let b := ztrunc (target / 500) in
  if (0 <? b)%Z then Z.to_nat (Z.max 10000 (Z.min b 200000)) else Z.to_nat 50000.
(** 885-887: rows[start : min(start + batch, n)] for start in range(0, n, batch). *)
Definition batches {A} (bs : nat) (l : list A) : list (list A) :=
  map (fun k => firstn (Nat.min (k * bs + bs) (List.length l) - k * bs) (skipn (k * bs) l))
      (seq 0 ((List.length l + bs - 1) / bs)).
(** 885-940: the batch loop. *)
Fixpoint g_loop (d : detector) (im : frames3) (bs : list (list (list num))) : result frames3 :=
  match bs with
  | [] => Ok im
  | b :: rest => let* im' := index_put im (List.concat (map (g_deposits d) b)) in g_loop d im' rest
  end.
(** 761-944 (the early exit of an empty table returns the same zeros). *)
Definition render_gauss (d : detector) (bsize : nat) (rows : list (list num)) (frames : nat)
  : result frames3 :=
  g_loop d (zeros3 frames (d_nz d) (d_ny d)) (batches bsize rows).

(** ** Kernels *)
(** A square (n, n) tensor. *)
Record kernel := Ker { k_n : nat; k_at : nat -> nat -> num }.
Definition ksum_over (k : kernel) (lo n : nat) : num :=
  nsum (map (fun ab => k_at k (fst ab) (snd ab)) (grid (seq lo n))).
Definition ksum (k : kernel) : num := ksum_over k 0 (k_n k).
Definition kscale (s : num) (k : kernel) : kernel := Ker (k_n k) (fun a b => nmul (k_at k a b) s).
Definition knorm (z : bool) (k : kernel) : kernel :=
  let s := ksum k in Ker (k_n k) (fun a b => ndiv z (k_at k a b) s).

(** exp(-x / (2 sigma^2)) for x >= 0; with sigma = 0 the quotient is NaN at x = 0
    and -inf elsewhere. *)
Definition gexp (sigma x : R) : num :=
  if Req_EM_T sigma 0 then (if Req_EM_T x 0 then NaN else Fin 0)
  else Fin (exp (- x / (2 * sigma^2))).

(** 1744-1750: the radius search; at most max(0, maxr) iterations. *)
Fixpoint psf_loop (sigma thr : R) (maxr : Z) (r : Z) (fuel : nat) : Z :=
  match fuel with
  | O => r
  | S f => if (r <=? maxr)%Z then
             if nlt (gexp sigma (IZR r ^ 2)) (Fin (thr / 2)) then r
             else psf_loop sigma thr maxr (r + 1) f
           else r
  end.
Definition psf_radius (d : detector) : Z :=
  Z.min (psf_loop (d_sigma d) (d_threshold d) (d_max_radius d) 1 (Z.to_nat (d_max_radius d)))
        (d_max_radius d).
(** 1727-1759 _generate_gaussian_kernel; a negative cap makes torch.arange fail (in
    the code this happens in the constructor, line 174). *)
Definition psf_kernel (d : detector) : result kernel :=
  let r := psf_radius d in
  if (r <? 0)%Z then Err RuntimeError else
  Ok (knorm false (Ker (Z.to_nat (2 * r + 1))
        (fun a b => gexp (d_sigma d) ((INR a - IZR r)^2 + (INR b - IZR r)^2)))).

(** 1690-1725 conv2d of one frame with zero padding k//2 (the kernel side is odd, so
    the output has the shape of the input). *)
Definition padded (h w : nat) (f : nat -> nat -> num) (i j : Z) : num :=
  if ((0 <=? i) && (i <? Z.of_nat h) && (0 <=? j) && (j <? Z.of_nat w))%Z
  then f (Z.to_nat i) (Z.to_nat j) else Fin 0.
Definition conv2 (k : kernel) (h w : nat) (f : nat -> nat -> num) (i j : nat) : num :=
  let p := Z.of_nat (k_n k / 2) in
  nsum (map (fun ab => nmul (padded h w f (Z.of_nat i + Z.of_nat (fst ab) - p)
                                         (Z.of_nat j + Z.of_nat (snd ab) - p))
                           (k_at k (fst ab) (snd ab)))
            (grid (seq 0 (k_n k)))).
Definition conv3 (k : kernel) (im : frames3) : frames3 :=
  Fr (f_n im) (f_h im) (f_w im) (fun f => conv2 k (f_h im) (f_w im) (f_at im f)).

(** ** Airy peaks ('nano'), detector.py:947-1345 *)
Definition ncos (x : num) : num := match x with Fin a => Fin (cos a) | _ => NaN end.
(** 975-977, 1178-1180: "detector distance" over cos(incident angle). *)
Definition airy_dist (z : bool) (d : detector) (angle : num) : num :=
  ndiv z (Fin (norm (d_c0 d))) (ncos (nmul angle (Fin (PI / 180)))).
(** 981, 1183-1189: first zero of the Airy pattern in (z-)pixels. *)
Definition first_zero (z : bool) (d : detector) (r : list num) : num :=
  nmul (ndiv z (nmul (ncol r 23) (airy_dist z d (ncol r 27))) (Fin (d_pz d))) (Fin (11861/10000)).
Definition nceil (x : num) : num := match x with Fin a => Fin (IZR (ceil a)) | y => y end.
(** 947-995 _estimate_airy_kernel_memory times the safety factor 3 (1087-1091). *)
Definition airy_memory (z : bool) (d : detector) (r : list num) : num :=
  let kr := nmax (nmul (Fin 4) (first_zero z d r)) (Fin (3 * d_sigma d)) in
  let ks := nadd (nmul (Fin 2) (nceil kr)) (Fin 1) in
  nmul (nmul (nmul ks ks) (Fin 32)) (Fin 3).

(** 1116-1122: number of prefix sums that fit, at least one. *)
Fixpoint cumsum (acc : num) (l : list num) : list num :=
  match l with [] => [] | x :: xs => nadd acc x :: cumsum (nadd acc x) xs end.
Definition fit_count (avail : R) (mem : list num) : nat :=
  Nat.max 1 (List.length (filter (fun c => nle c (Fin avail)) (cumsum (Fin 0) mem))).
(** 1112-1161: the while loop; None when it has not ended after [fuel] iterations. *)
Fixpoint airy_batches {A} (mem : A -> num) (avail : R) (l : list A) (fuel : nat)
  : option (list (list A)) :=
  match l with
  | [] => Some []
  | _ => match fuel with
         | O => None
         | S f => let bs := fit_count avail (map mem l) in
                  option_map (cons (firstn bs l)) (airy_batches mem avail (skipn bs l) f)
         end
  end.

(** 1199-1217: kernel radius of a batch.  python's max(nan, 8.0) is nan, on which
    torch.arange raises RuntimeError. *)
Fixpoint airy_radius_loop (sigma thr r : R) (fuel : nat) : R :=
  match fuel with
  | O => r
  | S f => if Rle_dec r 128 then
             if nlt (gexp sigma (r^2)) (Fin thr) then r else airy_radius_loop sigma thr (2 * r) f
           else r
  end.
Definition nmax_list (l : list num) : num :=
  match l with [] => NaN | x :: xs => fold_left nmax xs x end.
Definition airy_radius (d : detector) (max_fz : num) : result R :=
  match max_fz with
  | NaN => Err RuntimeError
  | PInf => Ok 128
  | NInf | Fin _ =>
      let r0 := match max_fz with Fin x => Rmax (4 * x) 8 | _ => 8 end in
      let r := airy_radius_loop (d_sigma d) (d_threshold d / 2) r0 6 in
      Ok (if Rlt_dec 128 r then 128 else r)
  end.

(** 1228-1279: the profile.  [j1] is scipy.special.j1 (external). *)
Definition airy_profile (z : bool) (j1 : R -> R) (fz : num) (sigma r : R) : num :=
  let x := if Req_EM_T r 0 then Fin (/ 10^10) else ndiv z (Fin (38317/10000 * r)) fz in
  let airy := match x with
              | Fin x => if Rlt_dec (Rabs x) (/ 10^8) then Fin 1 else Fin ((2 * j1 x / x)^2)
              | _ => NaN
              end in
  if nlt fz (Fin sigma) then nmul airy (gexp sigma (r^2)) else airy.
(** 1219-1221, 1292: the sampled profile on torch.arange(-radius, radius + 1)^2. *)
Definition airy_grid (z : bool) (j1 : R -> R) (d : detector) (radius : R) (fz : num) : kernel :=
  Ker (Z.to_nat (ceil (2 * radius + 1)))
      (fun a b => airy_profile z j1 fz (d_sigma d)
                    (sqrt ((- radius + INR a)^2 + (- radius + INR b)^2))).

(** python slice [lo:hi] of a length-n axis: (start, count). *)
Definition slice (n : nat) (lo hi : Z) : nat * nat :=
  let norm x := if (x <? 0)%Z then Z.max 0 (x + Z.of_nat n) else Z.min x (Z.of_nat n) in
  (Z.to_nat (norm lo), Z.to_nat (norm hi - norm lo)).
Definition window (k : kernel) (c : nat) : nat * nat :=
  let ctr := Z.of_nat (k_n k / 2) in slice (k_n k) (ctr - Z.of_nat c) (ctr + Z.of_nat c + 1).
Definition window_sum (k : kernel) (c : nat) : num :=
  ksum_over k (fst (window k c)) (snd (window k c)).
(** 1297-1309: binary search for the crop radius. *)
Fixpoint crop_search (enough : nat -> bool) (left right fuel : nat) : nat :=
  match fuel with
  | O => left
  | S f => if Nat.ltb left right then
             let mid := ((left + right) / 2)%nat in
             if enough mid then crop_search enough left mid f
             else crop_search enough (mid + 1) right f
           else left
  end.
Definition crop_radius (thr : R) (k : kernel) : nat :=
  crop_search (fun c => nle (Fin (1 - thr)) (window_sum k c)) 1 (k_n k / 2) (k_n k / 2).
(** 1311-1315 *)
Definition crop (k : kernel) (c : nat) : kernel :=
  Ker (snd (window k c)) (fun a b => k_at k (fst (window k c) + a) (fst (window k c) + b)).
(** 1281-1318: the cropped kernel of one peak, and 2*crop_r+1. *)
Definition airy_kernel (z : bool) (j1 : R -> R) (d : detector) (psf : kernel) (radius : R) (fz : num)
  : kernel * nat :=
  let k := knorm z (if nlt fz (Fin (1/2)) then psf else airy_grid z j1 d radius fz) in
  let c := crop_radius (d_threshold d) k in
  (crop k c, (2 * c + 1)%nat).
(** 1320-1330: symmetric zero padding by (max_size - n)//2. *)
Definition pad_to (m : nat) (k : kernel) : kernel :=
  if Nat.ltb (k_n k) m then
    let p := ((m - k_n k) / 2)%nat in
    Ker (k_n k + 2 * p)
        (fun a b => if (Nat.leb p a && Nat.ltb a (p + k_n k) && Nat.leb p b && Nat.ltb b (p + k_n k))%bool
                    then k_at k (a - p) (b - p) else Fin 0)
  else k.
(** 1159-1333 _airy_kernel_batch; torch.cat needs equal sizes. *)
Definition airy_kernels (z : bool) (j1 : R -> R) (d : detector) (psf : kernel) (rows : list (list num))
  : result (list kernel) :=
  let fzs := map (first_zero z d) rows in
  let* radius := airy_radius d (nmax_list fzs) in
  let ks := map (airy_kernel z j1 d psf radius) fzs in
  let m := fold_right Nat.max 0%nat (map snd ks) in
  let out := map (fun k => pad_to m (fst k)) ks in
  match out with
  | [] => Ok []
  | k :: rest => if forallb (fun k' => Nat.eqb (k_n k') (k_n k)) rest then Ok out else Err RuntimeError
  end.

(** 1375-1426 _deposit_kernels_batch: the four neighbour deposits of one kernel
    value at continuous position (zc, yc), in-range ones only. *)
Definition bilinear (h w : nat) (f : Z) (zc yc : R) (v : num) : list deposit :=
  let z0 := Int_part zc in let y0 := Int_part yc in
  let fz := zc - IZR z0 in let fy := yc - IZR y0 in
  filter (fun dp => let '(_, i, j, _) := dp in
            ((0 <=? i) && (i <? Z.of_nat h) && (0 <=? j) && (j <? Z.of_nat w))%Z)
    [ (f, z0, y0, nmul v (Fin ((1 - fz) * (1 - fy))));
      (f, z0, (y0 + 1)%Z, nmul v (Fin ((1 - fz) * fy)));
      (f, (z0 + 1)%Z, y0, nmul v (Fin (fz * (1 - fy))));
      (f, (z0 + 1)%Z, (y0 + 1)%Z, nmul v (Fin (fz * fy))) ].
(** 1375-1390: positions of the kernel entries. *)
Definition kernel_deposits (h w : nat) (f : Z) (zc yc : R) (k : kernel) : list deposit :=
  let half := INR (k_n k / 2) in
  List.concat (map (fun ab => bilinear h w f (zc + (INR (fst ab) - half)) (yc + (INR (snd ab) - half))
                           (k_at k (fst ab) (snd ab)))
              (grid (seq 0 (k_n k)))).

(** 1124-1149: one batch; peaks whose frame column equals no rendered frame are
    deposited nowhere. *)
Definition airy_batch (z : bool) (j1 : R -> R) (d : detector) (psf : kernel) (frames : nat)
  (im : frames3) (rows : list (list num)) : result frames3 :=
  let* ks := airy_kernels z j1 d psf rows in
  let items := combine rows (map (fun rk => kscale (peak_intensity (fst rk)) (snd rk)) (combine rows ks)) in
  index_put im
    (List.concat (map (fun f =>
       List.concat (map (fun rk => kernel_deposits (d_nz d) (d_ny d) (Z.of_nat f)
                                (pos_z d (fst rk)) (pos_y d (fst rk)) (snd rk))
                   (filter (fun rk => Reqb (fcol (fst rk) 28) (INR f)) items)))
       (seq 0 frames))).
Fixpoint airy_loop (z : bool) (j1 : R -> R) (d : detector) (psf : kernel) (frames : nat)
  (im : frames3) (bs : list (list (list num))) : result frames3 :=
  match bs with
  | [] => Ok im
  | b :: rest => let* im' := airy_batch z j1 d psf frames im b in airy_loop z j1 d psf frames im' rest
  end.
(** 997-1157 _render_airy_peaks.  [argsort] is torch.argsort(descending=True), which
    is not stable: any permutation of the positions that sorts the memory. *)
Definition render_airy (z : bool) (j1 : R -> R) (argsort : list num -> list nat) (d : detector)
  (avail : R) (rows : list (list num)) (frames : nat) : result frames3 :=
  match rows with
  | [] => Ok (zeros3 frames (d_nz d) (d_ny d))
  | _ =>
      let* psf := psf_kernel d in
      let* sorted := gather rows (argsort (map (airy_memory z d) rows)) in
      match airy_batches (airy_memory z d) avail sorted (List.length sorted) with
      | None => Err RuntimeError          (* not reached: see pC41 *)
      | Some bs =>
          let* im := airy_loop z j1 d psf frames (zeros3 frames (d_nz d) (d_ny d)) bs in
          Ok (conv3 psf im)
      end
  end.

(** ** Projected volumes ('macro'), detector.py:1431-1688 *)
(** scipy.spatial.ConvexHull (external): corners points[vertices], equations, volume. *)
Record hull := Hull { h_corners : list vec; h_eqs : list halfspace; h_volume : R }.

(** External parts of rendering: sign of zero denominators, free memory in GB (as
    reported to the micro and to the nano method), bessel function, argsort, the
    hull routines of the beam, ConvexHull of an intersection, and the random
    sampler utils._sample_convex_hull_3d (a function of the peak's position). *)
Record render_env := REnv {
  re_z : bool; re_free_micro : R; re_free_nano : R;
  re_j1 : R -> R; re_argsort : list num -> list nat;
  re_qhull : qhull; re_lp : lp_solver; re_lsq : lsq_solver;
  re_hull : list vec -> intersection -> result hull;
  re_sample : nat -> hull -> nat -> list vec }.

(** 1589-1688 _project_convex_hull: a (rows, cols) array. *)
Definition box_matrix := nat -> nat -> num.
(** 1674-1686: pixel-centre rays, detector driven. *)
Definition project_detector_driven (z : bool) (d : detector) (hl : hull) (dir : vec)
  (r0 c0 : nat) (rows cols : nat) : box_matrix :=
  let planes := hull_planes (h_eqs hl) in
  let len a b := match pixel_coordinate d (r0 + a) (c0 + b) with
                 | NV (Fin x) (Fin y) (Fin w) => clip_length (V3 x y w) dir planes
                 | _ => 0 end in
  let total := sum_list (map (fun ab => len (fst ab) (snd ab)) (list_prod (seq 0 rows) (seq 0 cols))) in
  fun a b => nmul (ndiv z (Fin (len a b)) (Fin total)) (Fin (h_volume hl)).
(** 1643-1671: sample driven; a sample that leaves the box wraps around or raises. *)
Definition sample_index (r0 : Z) (n : nat) (px : R) (x : num) : result nat :=
  match x with
  | Fin v => match wrap n (ztrunc (v / px) - r0) with Some i => Ok i | None => Err IndexError end
  | _ => Err IndexError
  end.
Definition sample_cell (z : bool) (d : detector) (dir : vec) (r0 c0 : Z) (rows cols : nat) (p : vec)
  : result (nat * nat) :=
  let '(zd, yd, _) := get_intersection z d (nfin dir) (nfin p) in
  let* i := sample_index r0 rows (d_pz d) zd in
  let* j := sample_index c0 cols (d_py d) yd in
  Ok (i, j).
Definition project_sample_driven (z : bool) (d : detector) (hl : hull) (dir : vec)
  (r0 c0 : Z) (rows cols : nat) (samples : list vec) : result box_matrix :=
  let* cells := traverse (sample_cell z d dir r0 c0 rows cols) samples in
  let lens := clip_lengths samples dir (hull_planes (h_eqs hl)) in
  let cell a b := sum_list (map snd (filter (fun cl => Nat.eqb (fst (fst cl)) a && Nat.eqb (snd (fst cl)) b)
                                            (combine cells lens))) in
  let total := sum_list (map (fun ab => cell (fst ab) (snd ab)) (list_prod (seq 0 rows) (seq 0 cols))) in
  Ok (fun a b => nmul (ndiv z (Fin (cell a b)) (Fin total)) (Fin (h_volume hl))).
Definition project_hull (z : bool) (d : detector) (hl : hull) (kout : vec) (box : Z * Z * Z * Z)
  (sample : hull -> nat -> list vec) : result box_matrix :=
  let '(r0, r1, c0, c1) := box in
  let n := ((r1 - r0) * (c1 - c0))%Z in
  let rows := Z.to_nat (r1 - r0) in let cols := Z.to_nat (c1 - c0) in
  let dir := vdiv kout (norm kout) in
  if (n =? 1)%Z then Ok (fun _ _ => Fin (h_volume hl))
  else if (n <=? 4)%Z then
    project_sample_driven z d hl dir r0 c0 rows cols (sample hl (7 * Z.to_nat n)%nat)
  else Ok (project_detector_driven z d hl dir (Z.to_nat r0) (Z.to_nat c0) rows cols).

(** 1543-1583: the deposits of one peak (position k in the table). *)
Definition macro_deposits (e : render_env) (d : detector) (b : beam) (me : mesh) (m : motion)
  (k : nat) (r : list num) : result (list deposit) :=
  match nth_error (me_enod me) (Z.to_nat (ztrunc (fcol r 0))) with
  | None => Err IndexError
  | Some el =>
      let* t := gather_tet (me_coord me) el in
      let vs := map (move_at m (fcol r 6)) (tet_list t) in
      let* it := beam_intersect (re_qhull e) (re_lp e) (re_lsq e) (b_halfspaces b) vs in
      match it with
      | NoIntersection => Ok []
      | _ =>
          let* hl := re_hull e vs it in
          match projected_box (re_z e) d (h_corners hl) (fvec r 13) with
          | None => Ok []
          | Some (r0, r1, c0, c1) =>
              let* pr := project_hull (re_z e) d hl (fvec r 13) (r0, r1, c0, c1) (re_sample e k) in
              match ncol r 29 with
              | Fin i =>
                  Ok (map (fun ab => (ztrunc (fcol r 28), (r0 + Z.of_nat (fst ab))%Z, (c0 + Z.of_nat (snd ab))%Z,
                        nmul (Fin i) (nmul (nmul (pr (fst ab) (snd ab)) (Fin (d_pz d))) (Fin (d_py d)))))
                     (list_prod (seq 0 (Z.to_nat (r1 - r0))) (seq 0 (Z.to_nat (c1 - c0)))))
              | _ => Ok []
              end
          end
      end
  end.
(** 1431-1587 _render_projected_volumes.  Every frame that occurs is accumulated,
    convolved and stored; frames without peaks stay zero.  (Frames are handled one by
    one in the code; when several peaks raise, which exception comes first is not
    modelled.) *)
Definition render_macro (e : render_env) (d : detector) (b : beam) (me : mesh) (m : motion)
  (rows : list (list num)) (frames : nat) : result frames3 :=
  match rows with
  | [] => Ok (zeros3 frames (d_nz d) (d_ny d))
  | _ =>
      let* psf := psf_kernel d in
      let* deps := traverse (fun kr => macro_deposits e d b me m (fst kr) (snd kr))
                            (combine (seq 0 (List.length rows)) rows) in
      let* _ := traverse (fun r => match wrap frames (ztrunc (fcol r 28)) with
                                   | Some _ => Ok tt | None => Err IndexError end) rows in
      let* im := index_put (zeros3 frames (d_nz d) (d_ny d)) (List.concat deps) in
      let used f := existsb (fun r => match wrap frames (ztrunc (fcol r 28)) with
                                      | Some g => Nat.eqb f g | None => false end) rows in
      let cv := conv3 psf im in
      Ok (Fr frames (d_nz d) (d_ny d)
            (fun f i j => if used f then f_at cv f i j else Fin 0))
  end.

(** ** render, detector.py:232-380 *)
Definition add3 (a b : frames3) : frames3 :=
  Fr (f_n a) (f_h a) (f_w a) (fun f i j => nadd (f_at a f i j) (f_at b f i j)).
(** 342-347: the masks of the automatic method. *)
Definition large (macro_limit : R) (r : list num) : bool := nle (Fin macro_limit) (ncol r 21).
Definition small (micro_limit : R) (r : list num) : bool := nlt (ncol r 21) (Fin micro_limit).
Definition medium (macro_limit micro_limit : R) (r : list num) : bool :=
  negb (large macro_limit r) && negb (small micro_limit r).
(** 340-341 *)
Definition default_macro_limit (d : detector) : R := (Rmin (d_py d) (d_pz d)) ^ 3.

Definition micro_method (e : render_env) (d : detector) (rows : list (list num)) (frames : nat) :=
  render_gauss d (g_batch_size (re_free_micro e)) rows frames.
Definition nano_method (e : render_env) (d : detector) (rows : list (list num)) (frames : nat) :=
  render_airy (re_z e) (re_j1 e) (re_argsort e) d (re_free_nano e * 1024^3) rows frames.
Definition macro_method (e : render_env) (d : detector) (pd : peaks_dict) (rows : list (list num)) (frames : nat) :=
  render_macro e d (pd_beam pd) (pd_mesh pd) (pd_motion pd) rows frames.

Definition render (e : render_env) (d : detector) (pd : peaks_dict) (frames_to_render : Z)
  (method : string) (macro_limit : option R) (micro_limit : R)
  : result (frames3 * peaks_dict) :=
  let frames := if (frames_to_render <? 1)%Z then 1%Z else frames_to_render in     (* 321-324 *)
  let n := Z.to_nat frames in
  let* out := project (re_z e) d pd frames in                                      (* 326-328 *)
  let rows := pd_peaks out in
  let* im :=
    if String.eqb method "macro" then macro_method e d out rows n
    else if String.eqb method "micro" then micro_method e d rows n
    else if String.eqb method "nano" then nano_method e d rows n
    else if String.eqb method "auto" then
      let mac := match macro_limit with Some x => x | None => default_macro_limit d end in
      let* ma := macro_method e d out (filter (large mac) rows) n in
      let* mi := micro_method e d (filter (medium mac micro_limit) rows) n in
      let* na := nano_method e d (filter (small micro_limit) rows) n in
      Ok (add3 (add3 (add3 (zeros3 n (d_nz d) (d_ny d)) na) ma) mi)
    else Err ValueError in
  Ok (im, out).
