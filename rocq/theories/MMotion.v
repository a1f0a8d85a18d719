(** * Model of xrd_simulator/motion.py (RigidBodyMotion, _RodriguezRotator).
    No proofs in this file. *)
From Verif Require Import Vec.

(** motion.py:53-63, 72-76: the attributes of a RigidBodyMotion.  The rotator's
    cached K, K2 (motion.py:288-291) are functions of the axis and recomputed. *)
Record motion := Motion {
  m_axis : vec;      (* rotation_axis *)
  m_angle : R;       (* rotation_angle *)
  m_trans : vec;     (* translation *)
  m_origin : vec     (* origin *)
}.

(** motion.py:285-287: torch.allclose(norm, 1.0) with the default tolerances
    rtol=1e-5, atol=1e-8: |x - y| <= atol + rtol*|y| with y = 1. *)
Definition axis_tol : R := / 10^8 + / 10^5 * Rabs 1.
Definition axis_ok (a : vec) : bool := Rleb (Rabs (norm a - 1)) axis_tol.

(** motion.py:66-76 __init__ (angle assertion first, then the rotator's axis
    assertion).  torch.pi is idealised as PI. *)
Definition make_motion (axis : vec) (angle : R) (trans origin : vec) : result motion :=
  let* _ := assert_ (Rltb angle PI && Rltb 0 angle) in
  let* _ := assert_ (axis_ok axis) in
  Ok (Motion axis angle trans origin).

(** motion.py:289-290: rx, ry, rz = axis; K = [[0,-rz,ry],[rz,0,-rx],[-ry,rx,0]]. *)
Definition rod_K (a : vec) : mat :=
  M3 (V3 0 (- vz a) (vy a)) (V3 (vz a) 0 (- vx a)) (V3 (- vy a) (vx a) 0).
(** motion.py:291: K2 = matmul(K, K). *)
Definition rod_K2 (a : vec) : mat := mm (rod_K a) (rod_K a).

(** motion.py:304-341 get_rotation_matrix for one angle:
    R = I + sin(rot)*K + (1 - cos(rot))*K2. *)
Definition rod_matrix (a : vec) (theta : R) : mat :=
  madd (madd mI (mscale (sin theta) (rod_K a))) (mscale (1 - cos theta) (rod_K2 a)).

(** Array arguments, by number of dimensions: (3,), (N,3), (N,M,3). A [P3 M l]
    holds N lists of M points.  The documented "(3,N)" layout is the same data
    as [P2] only when N=3; the code always reads rows as points. *)
Inductive pts := P1 (v : vec) | P2 (l : list vec) | P3 (M : nat) (l : list (list vec)).
(** time / angle arguments: 0-dimensional or shape (n,). *)
Inductive times := S0 (t : R) | S1 (ts : list R).

Fixpoint zip_with {A B C} (f : A -> B -> C) (l : list A) (m : list B) : list C :=
  match l, m with x :: xs, y :: ys => f x y :: zip_with f xs ys | _, _ => [] end.

(** torch.squeeze of an (N,3) result (motion.py:371): N=1 collapses to (3,). *)
Definition squeeze2 (l : list vec) : pts :=
  match l with [v] => P1 v | _ => P2 l end.

(** motion.py:344-375 _RodriguezRotator.__call__ on rows [l] (a (3,) input has
    been turned into one row, line 365-366).  Scalar angle: matmul then squeeze
    (369-371).  Vector of angles: bmm, which demands equal batch sizes and
    raises RuntimeError otherwise (375); no squeeze of the batch dimension. *)
Definition rotator_rows (a : vec) (l : list vec) (angle : times) : result pts :=
  match angle with
  | S0 th => Ok (squeeze2 (map (mv (rod_matrix a th)) l))
  | S1 ths =>
      if Nat.eqb (length ths) (length l)
      then Ok (P2 (zip_with (fun th v => mv (rod_matrix a th) v) ths l))
      else Err RuntimeError
  end.

(** motion.py:362-375: dispatch on dimension; 3-d input breaks matmul/bmm. *)
Definition rotator_call (a : vec) (p : pts) (angle : times) : result pts :=
  match p with
  | P1 v => rotator_rows a [v] angle
  | P2 l => rotator_rows a l angle
  | P3 _ _ => Err RuntimeError
  end.

(** rotation_angle * time (motion.py:108, 118, 167). *)
Definition scale_times (w : R) (t : times) : times :=
  match t with S0 t => S0 (w * t) | S1 ts => S1 (map (Rmult w) ts) end.

(** Rows of a rotator result after broadcasting with a (1,3) array
    (motion.py:120: (3,) or (N,3) plus origin of shape (1,3) gives rows). *)
Definition rows_of (p : pts) : list vec :=
  match p with P1 v => [v] | P2 l => l | P3 _ l => concat l end.

(** motion.py:134: torch.tile(time, (M,1)).T.reshape(-1) for time of shape (N,):
    each time repeated M times, in order. *)
Definition tile_times (M : nat) (ts : list R) : list R :=
  concat (map (fun t => repeat t M) ts).

(** .reshape(N, M, 3) (motion.py:135): split N*M rows in groups of M. *)
Fixpoint chunk (N M : nat) (l : list vec) : list (list vec) :=
  match N with O => [] | S n => firstn M l :: chunk n M (skipn M l) end.

(** motion.py:78-141 RigidBodyMotion.__call__. *)
Definition motion_call (m : motion) (p : pts) (t : times) : result pts :=
  let o := m_origin m in
  match p with
  | P1 v =>                                            (* 103-111 *)
      let* r := rotator_call (m_axis m) (P1 (vsub v o)) (scale_times (m_angle m) t) in
      match t, rows_of r with
      | S0 t0, [w] => Ok (P1 (vadd (vadd w o) (vscale t0 (m_trans m))))
      | S1 [t0], [w] => Ok (P1 (vadd (vadd w o) (vscale t0 (m_trans m))))
      | _, _ => Err RuntimeError
      end
  | P2 l =>                                            (* 113-124 *)
      let* r := rotator_call (m_axis m) (P2 (map (fun v => vsub v o) l))
                  (scale_times (m_angle m) t) in
      let rotated := map (fun w => vadd w o) (rows_of r) in
      match t with
      | S0 t0 => Ok (P2 (map (fun w => vadd w (vscale t0 (m_trans m))) rotated))
      | S1 ts => Ok (P2 (zip_with (fun t0 w => vadd w (vscale t0 (m_trans m))) ts rotated))
      end
  | P3 M ll =>                                         (* 126-141 *)
      let N := length ll in
      match t with
      | S1 ts =>
          let* r := rotator_call (m_axis m) (P2 (map (fun v => vsub v o) (concat ll)))
                      (scale_times (m_angle m) (S1 (tile_times M ts))) in
          let rotated := map (map (fun w => vadd w o)) (chunk N M (rows_of r)) in
          if Nat.eqb (length ts) N then
            (* broadcast of (N,M,3) with time[:,None,None]; for M > 0 only equal lengths
               get here, because bmm has already checked N*M = n*M.  For M = 0 (no
               vertices at all) unequal broadcastable lengths are modelled as errors. *)
            Ok (P3 M (zip_with (fun t0 row =>
                  map (fun w => vadd w (vscale t0 (m_trans m))) row) ts rotated))
          else Err RuntimeError
      | S0 t0 =>
          (* torch.tile of a 0-d time gives M angles; bmm then needs M = N*M, and
             time[:, None, None] on a 0-d tensor is an IndexError *)
          if Nat.eqb M (N * M) then Err IndexError else Err RuntimeError
      end
  end.

(** motion.py:143-168 rotate: no origin, no translation. *)
Definition motion_rotate (m : motion) (p : pts) (t : times) : result pts :=
  rotator_call (m_axis m) p (scale_times (m_angle m) t).

(** Single-vector view of rotate/__call__ at scalar time, used by the other
    model files (motion.py:111 and 371 on a (3,) input). *)
Definition rot_at (m : motion) (t : R) (v : vec) : vec :=
  mv (rod_matrix (m_axis m) (m_angle m * t)) v.
Definition move_at (m : motion) (t : R) (x : vec) : vec :=
  vadd (vadd (rot_at m t (vsub x (m_origin m))) (m_origin m)) (vscale t (m_trans m)).

(** General 1-d / 2-d arrays for translate (rows of equal length [ncol]). *)
Inductive arr := A1 (l : list R) | A2 (ncol : nat) (rows : list (list R)).
Definition vlist (v : vec) : list R := [vx v; vy v; vz v].

(** motion.py:170-199 translate.  (k,)+(3,) broadcasts for k=3 and k=1;
    (r,c)+(3,1) broadcasts for r=3 (component i added to row i) and r=1 (the
    single row is replicated three times). *)
Definition motion_translate (m : motion) (a : arr) (t : R) : result arr :=
  let* _ := assert_ (Rleb t 1 && Rleb 0 t) in
  let T := map (fun c => c * t) (vlist (m_trans m)) in
  match a with
  | A1 l =>
      match l with
      | [x; y; z] => Ok (A1 (zip_with Rplus l T))
      | [x] => Ok (A1 (map (Rplus x) T))
      | _ => Err RuntimeError
      end
  | A2 c rows =>
      match rows with
      | [_; _; _] => Ok (A2 c (zip_with (fun row tc => map (fun x => x + tc) row) rows T))
      | [row] => Ok (A2 c (map (fun tc => map (fun x => x + tc) row) T))
      | _ => Err RuntimeError
      end
  end.

(** motion.py:201-217 inverse. *)
Definition motion_inverse (m : motion) : result motion :=
  make_motion (vneg (m_axis m)) (m_angle m) (vneg (m_trans m)) (m_origin m).
