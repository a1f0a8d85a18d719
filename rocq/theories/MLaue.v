(** * Model of xrd_simulator/laue.py and of the Laue factors built in
    polycrystal.py.  No proofs in this file. *)
From Verif Require Import Vec MMotion.

(** polycrystal.py:275-279: row-vector times matrix, v^T M = M^T v.
    rho_0_factor = -k K2, rho_1_factor = k K, rho_2_factor = k (I + K2). *)
Record rho_factors := RhoF { rf0 : vec; rf1 : vec; rf2 : vec }.
Definition laue_factors (k axis : vec) : rho_factors :=
  RhoF (mv (mT (rod_K2 axis)) (vneg k))
       (mv (mT (rod_K axis)) k)
       (mv (mT (madd mI (rod_K2 axis))) k).

(** laue.py:14-44 _get_G: U B hkl for one plane (the code batches over grains
    and planes; hkl are the rows of the (n,3) array). *)
Definition get_G (U B : mat) (hkl : vec) : vec := mv (mm U B) hkl.

(** laue.py:98-135 for one (grain, plane): the two candidate times t1, t2.
    [G] is one column of G_0; comparisons and NaN masks as in the code. *)
Definition laue_candidates (f : rho_factors) (delta_omega : R) (G : vec) : num * num :=
  let rho_0 := dot (rf0 f) G in                                   (* 98 *)
  let rho_2 := dot (rf2 f) G + normsq G / 2 in                    (* 99 *)
  let denominator := rho_2 - rho_0 in                             (* 100 *)
  let numerator := rho_2 + rho_0 in                               (* 101 *)
  let den := if Req_EM_T denominator 0 then NaN else Fin denominator in  (* 105 *)
  let a := ndiv false (Fin (dot (rf1 f) G)) den in                (* 108-112 *)
  let b := ndiv false (Fin numerator) den in                      (* 114-116 *)
  let disc0 := nsub (nmul a a) b in                               (* 124 *)
  let disc := if nlt disc0 (Fin 0) then NaN else disc0 in         (* 128 *)
  let s1 := nadd (nneg a) (nsqrt disc) in                         (* 132 *)
  let s2 := nsub (nneg a) (nsqrt disc) in                         (* 133 *)
  (ndiv false (nmul (Fin 2) (natan s1)) (Fin delta_omega),        (* 135 *)
   ndiv false (nmul (Fin 2) (natan s2)) (Fin delta_omega)).       (* 140 *)

(** laue.py:137, 142: logical_and(t >= 0, t <= 1); a kept time is finite. *)
Definition in_unit_interval (t : num) : option R :=
  if nle (Fin 0) t && nle t (Fin 1) then fin_of t else None.

(** One reported diffraction event (grain, plane, time). *)
Record hit := Hit { h_grain : nat; h_plane : nat; h_time : R }.
(** ... together with the gathered G vector. *)
Record event := Event { ev_grain : nat; ev_plane : nat; ev_time : R; ev_G : vec }.

(** laue.py:137-138 / 142-143: argwhere over the (grain, plane) table is
    row-major; [sel] picks t1 or t2. *)
Definition hits_row (sel : vec -> num) (g : nat) (row : list vec) : list hit :=
  concat (mapi (fun p G => match in_unit_interval (sel G) with
                           | Some t => [Hit g p t] | None => [] end) row).
Definition hits (sel : vec -> num) (G0 : list (list vec)) : list hit :=
  concat (mapi (hits_row sel) G0).

(** laue.py:152-153: G = transpose(G_0,2,1)[grains, planes]. *)
Definition gather_G (G0 : list (list vec)) (h : hit) : result event :=
  match nth_error G0 (h_grain h) with
  | Some row => match nth_error row (h_plane h) with
                | Some G => Ok (Event (h_grain h) (h_plane h) (h_time h) G)
                | None => Err IndexError end
  | None => Err IndexError
  end.
Fixpoint traverse {A B} (f : A -> result B) (l : list A) : result (list B) :=
  match l with
  | [] => Ok []
  | x :: xs => let* y := f x in let* ys := traverse f xs in Ok (y :: ys)
  end.

(** laue.py:48-155.  [G0] : grains -> planes -> vector (a 2-d G_0 is one grain,
    94-95).  Result rows in the order t1-hits then t2-hits (145-151). *)
Definition find_solutions (f : rho_factors) (delta_omega : R) (G0 : list (list vec))
  : result (list event) :=
  let t1 := hits (fun G => fst (laue_candidates f delta_omega G)) G0 in
  let t2 := hits (fun G => snd (laue_candidates f delta_omega G)) G0 in
  traverse (gather_G G0) (t1 ++ t2).

(** laue.py:165-185 _get_bragg_angle (deprecated helper). *)
Definition bragg_angle (G : vec) (wavelength : R) : R := asin (norm G * wavelength / (4 * PI)).
