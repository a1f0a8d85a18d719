(** * Model of xrd_simulator/scattering_factors.py.  No proofs in this file. *)
From Verif Require Import Vec.

(** torch.arccos: NaN outside of [-1, 1]. *)
Definition nacos (x : num) : num :=
  match x with
  | Fin a => if Rle_dec (-1) a then if Rle_dec a 1 then Fin (acos a) else NaN else NaN
  | _ => NaN
  end.
(** torch.sin / torch.abs on the values that can occur here. *)
Definition nsin (x : num) : num := match x with Fin a => Fin (sin a) | _ => NaN end.
Definition nabs (x : num) : num :=
  match x with Fin a => Fin (Rabs a) | NaN => NaN | _ => PInf end.
(** torch.rad2deg. *)
Definition nrad2deg (x : num) : num := nmul x (Fin (180 / PI)).

(** scattering_factors.py:44-67 _lorentz for one reflection.  The division by
    |k_in|^2 is exact division; a zero incident wave vector gives 0/0 = NaN
    throughout.  [zneg] is the (unobservable) sign of a zero denominator. *)
Definition lorentz (zneg : bool) (k_in rot_axis kp : vec) : num :=
  let kk := ndiv zneg (Fin (dot k_in kp)) (Fin ((norm k_in)^2)) in      (* 47-48 *)
  let theta := ndiv zneg (nacos kk) (Fin 2) in                             (* 49 *)
  let eta :=                                                               (* 52-54 *)
    match kk with
    | Fin c =>
        let korth := vsub kp (vscale c k_in) in
        nacos (ndiv zneg (Fin (dot rot_axis korth)) (Fin (norm korth)))
    | _ => NaN
    end in
  let tol := Fin (1/2) in                                                  (* 57-62 *)
  let cond := nlt (nabs (nrad2deg eta)) tol
           || nlt (Fin (180 - 1/2)) (nabs (nrad2deg eta))
           || nlt (nrad2deg theta) tol in
  let result := ndiv zneg (Fin 1) (nmul (nsin (nmul (Fin 2) theta)) (nabs (nsin eta))) in
  if cond then PInf else result.

(** Result of a call: .squeeze() (67) turns the (1,) result of a single
    reflection into a 0-dimensional tensor. *)
Inductive lres := LScalar (x : num) | LVector (l : list num).
Definition lorentz_call (zneg : bool) (k_in rot_axis : vec) (kps : list vec) : lres :=
  match map (lorentz zneg k_in rot_axis) kps with [x] => LScalar x | l => LVector l end.
(** polycrystal.py:379 lorentz_factors.unsqueeze(1): IndexError on 0-d. *)
Definition unsqueeze1 (r : lres) : result (list num) :=
  match r with LScalar _ => Err IndexError | LVector l => Ok l end.

(** scattering_factors.py:102-107 _polarization for one reflection: 1 - (p.k/|k|)^2
    (component-wise division of kp by its norm; NaN for kp = 0). *)
Definition polarization (pol kp : vec) : num :=
  if Req_EM_T (norm kp) 0 then NaN
  else let d := dot (V3 (vx kp / norm kp) (vy kp / norm kp) (vz kp / norm kp)) pol in Fin (1 - d ^ 2).

(** x ** (1/3) for x >= 0. *)
Definition cbrt_nonneg (x : R) : R := if Req_EM_T x 0 then 0 else Rpower x (1/3).
(** scattering_factors.py:131-134: crystallite size in angstrom. *)
Definition crystallite_size (volume : R) : R := 2 * cbrt_nonneg (3 * volume / (4 * PI)) * 10000.
(** scattering_factors.py:110-135 _scherrer (K = 0.9); volumes are never negative
    (utils.py:806 takes the absolute value). *)
Definition scherrer_K : R := 9/10.
Definition scherrer (zneg : bool) (volume two_theta wavelength : R) : num :=
  ndiv zneg (Fin (scherrer_K * wavelength)) (Fin (crystallite_size volume * cos (two_theta / 2))).
