(** * Model of the strain / lattice helpers of xrd_simulator/utils.py.  No proofs. *)
From Verif Require Import Vec MLaue.

(** utils.py:317-320 _strain_as_vector on one (3,3) tensor. *)
Definition strain_as_vector (e : mat) : list R :=
  [vx (r1 e); vy (r1 e); vz (r1 e); vy (r2 e); vz (r2 e); vz (r3 e)].
(** utils.py:921-928 _strain_as_tensor; unpacking a list of any other length raises
    ValueError. *)
Definition strain_as_tensor (v : list R) : result mat :=
  match v with
  | [e11; e12; e13; e22; e23; e33] => Ok (M3 (V3 e11 e12 e13) (V3 e12 e22 e23) (V3 e13 e23 e33))
  | _ => Err ValueError
  end.

(** utils.py:330: C = 2*eps + I.  eigvalsh and cholesky read the lower triangle
    only: the entries c11; c21 c22; c31 c32 c33. *)
Definition metric (eps : mat) : mat := madd (mscale 2 eps) mI.
Definition lower_sym (C : mat) : mat :=
  M3 (V3 (vx (r1 C)) (vx (r2 C)) (vx (r3 C)))
     (V3 (vx (r2 C)) (vy (r2 C)) (vy (r3 C)))
     (V3 (vx (r3 C)) (vy (r3 C)) (vz (r3 C))).

(** utils.py:332-333: any(eigvalsh(C) < 0).  The sign condition "no negative
    eigenvalue" of a symmetric 3x3 matrix is decided by its principal minors
    (PStrain.psd_iff proves that this is the same as the quadratic form being
    nonnegative everywhere); torch's eigenvalue routine itself is not modelled. *)
Definition no_negative_eig (C : mat) : bool :=
  let S := lower_sym C in
  let a := vx (r1 S) in let b := vy (r2 S) in let c := vz (r3 S) in
  let p := vx (r2 S) in let q := vx (r3 S) in let r := vy (r3 S) in
  Rleb 0 a && Rleb 0 b && Rleb 0 c &&
  Rleb 0 (a*b - p*p) && Rleb 0 (a*c - q*q) && Rleb 0 (b*c - r*r) && Rleb 0 (det S).

(** torch.linalg.cholesky (lower factor L, C = L L^T) of the lower triangle; raises
    LinAlgError when a pivot is not positive. *)
Definition cholesky (C : mat) : result mat :=
  let S := lower_sym C in
  let d1 := vx (r1 S) in
  if Rle_dec d1 0 then Err LinAlgError else
  let l11 := sqrt d1 in
  let l21 := vx (r2 S) / l11 in
  let l31 := vx (r3 S) / l11 in
  let d2 := vy (r2 S) - l21 * l21 in
  if Rle_dec d2 0 then Err LinAlgError else
  let l22 := sqrt d2 in
  let l32 := (vy (r3 S) - l31 * l21) / l22 in
  let d3 := vz (r3 S) - l31 * l31 - l32 * l32 in
  if Rle_dec d3 0 then Err LinAlgError else
  let l33 := sqrt d3 in
  Ok (M3 (V3 l11 0 0) (V3 l21 l22 0) (V3 l31 l32 l33)).

(** torch.linalg.inv of a 3x3 matrix (adjugate over determinant). *)
Definition minv (A : mat) : mat :=
  mscale (/ det A) (mT (M3 (cross (r2 A) (r3 A)) (cross (r3 A) (r1 A)) (cross (r1 A) (r2 A)))).
Definition inv_checked (A : mat) : result mat :=
  if Req_EM_T (det A) 0 then Err LinAlgError else Ok (minv A).

(** utils.py:334-345 for one element of the batch, after the eigenvalue check. *)
Definition eps_to_B1 (B0 eps : mat) : result mat :=
  let* L := cholesky (metric eps) in
  let F := mT L in
  let* Fi := inv_checked F in
  Ok (mm Fi B0).

(** utils.py:323-345 _epsilon_to_b on a batch of shape (n,3,3) (the only way the
    library calls it: 271-272 unsqueezes).  The message of the ValueError is built
    by _strain_as_vector(crystal_strain) (333-337), which indexes the batch as if
    it were one tensor: [0,:], [1,1:], [2,2] - an IndexError when the batch has
    fewer than 3 elements. *)
Definition epsilon_to_b (B0 : mat) (eps : list mat) : result (list mat) :=
  if forallb (fun e => no_negative_eig (metric e)) eps
  then traverse (eps_to_B1 B0) eps
  else if Nat.ltb (length eps) 3 then Err IndexError else Err ValueError.

(** utils.py:268-279 _lab_strain_to_B_matrix: U^T (eps U), element-wise.  Simplified: batches of
    different lengths are a RuntimeError here, torch would broadcast a batch of one; the
    library's only caller (polycrystal.py:672) passes equal lengths. *)
Definition crystal_strain (U eps : mat) : mat := mm (mT U) (mm eps U).
Definition lab_strain_to_B (B0 : mat) (strain orientation : list mat) : result (list mat) :=
  if Nat.eqb (length strain) (length orientation)
  then epsilon_to_b B0 (map (fun eu => crystal_strain (snd eu) (fst eu)) (combine strain orientation))
  else Err RuntimeError.

(** utils.py:348-358 _b_to_epsilon (one matrix). *)
Definition b_to_epsilon (B B0 : mat) : result (list R) :=
  let* Bi := inv_checked B in
  let F := mm B0 Bi in
  Ok (strain_as_vector (mscale (1/2) (msub (mm (mT F) F) mI))).
