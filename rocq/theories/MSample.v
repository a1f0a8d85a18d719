(** * Model of utils.py:127-165 _sample_convex_hull_3d.  No proofs in this file. *)
From Verif Require Import Vec MLaue MMesh.
Open Scope R_scope.

(** utils.py:144 points.mean(axis=0). *)
Definition hull_mean (points : list vec) : vec := vscale (/ INR (List.length points)) (fold_right vadd vzero points).
(** utils.py:145-148: the cone of a surface triangle over the mean point. *)
Definition cone (points : list vec) (s : nat * nat * nat) : result tet :=
  let '(a, b, c) := s in
  match nth_error points a, nth_error points b, nth_error points c with
  | Some va, Some vb, Some vc => Ok (Tet (hull_mean points) va vb vc)
  | _, _, _ => Err IndexError
  end.
(** utils.py:149-155: |a . (b x c)| / 6. *)
Definition cone_volume (t : tet) : R :=
  Rabs (dot (vsub (q1 t) (q0 t)) (cross (vsub (q2 t) (q0 t)) (vsub (q3 t) (q0 t)))) / 6.
(** numpy.random.Generator.choice(p=...) (utils.py:156): cumulative sums divided by the last one,
    then searchsorted(u, side='right') for a uniform u in [0,1). *)
Fixpoint cumsum (acc : R) (l : list R) : list R :=
  match l with [] => [] | x :: xs => (acc + x) :: cumsum (acc + x) xs end.
Fixpoint search_right (l : list R) (u : R) : nat :=
  match l with [] => 0%nat | x :: xs => if Rle_dec x u then S (search_right xs u) else 0%nat end.
Definition choose (p : list R) (u : R) : nat :=
  let c := cumsum 0 p in search_right (map (fun x => x / last c 0) c) u.
(** utils.py:160-163: weights divided by their sum, times the corners. *)
Definition blend (w : R * R * R * R) (t : tet) : vec :=
  let '(a, b, c, d) := w in
  let s := a + b + c + d in
  vadd (vscale (a / s) (q0 t)) (vadd (vscale (b / s) (q1 t)) (vadd (vscale (c / s) (q2 t)) (vscale (d / s) (q3 t)))).
(** utils.py:127-165.  [draws]: per sample a uniform number and four exponential variates.  A zero total
    volume makes the probabilities NaN, which choice refuses with ValueError; so does an empty list
    of simplices. *)
Definition sample_hull (points : list vec) (simplices : list (nat * nat * nat)) (draws : list (R * (R * R * R * R))) : result (list vec) :=
  let* tets := traverse (cone points) simplices in
  let vols := map cone_volume tets in
  let total := sum_list vols in
  if Req_EM_T total 0 then Err ValueError
  else Ok (map (fun uw => blend (snd uw) (nth (choose (map (fun v => v / total) vols) (fst uw)) tets (Tet vzero vzero vzero vzero))) draws).
