(** * Model of the least-squares step of beam.py, _find_feasible_point.  No proofs in this file. *)
From Verif Require Import Vec MMotion MMesh MBeam.
Open Scope R_scope.

(** beam.py:287-288 A.T.dot(A) where the rows of A are the normals of the tight half-spaces. *)
Definition gram (A : list halfspace) : mat :=
  fold_right (fun h S => madd (M3 (vscale (vx (hs_n h)) (hs_n h)) (vscale (vy (hs_n h)) (hs_n h)) (vscale (vz (hs_n h)) (hs_n h))) S) mzero A.
(** beam.py:289 A.T.dot(-np.ones(...) * 1e-5) *)
Definition gram_rhs (A : list halfspace) : vec :=
  fold_right (fun h s => vadd (vscale (- / 10^5) (hs_n h)) s) vzero A.
(** beam.py:288-290 np.linalg.solve: a singular matrix raises LinAlgError.  In exact arithmetic. *)
Definition solve_step (A : list halfspace) : result vec :=
  if Req_EM_T (det (gram A)) 0 then Err LinAlgError else Ok (solve3 (gram A) (gram_rhs A)).
