(** * Specification vocabulary for structure factors: the textbook sum, one reflection at a time. *)
From Verif Require Import Vec Spec MMesh MStructure.
From Coq Require Import String Permutation.
Open Scope R_scope.

(** Atomic form factor: four Gaussians and a constant. *)
Definition form_factor (st : structure) (t : string) (s : R) : R :=
  match st_formfactor st t with
  | Some (a, b, c) => sum_list (map (fun ab => fst ab * exp (- (snd ab * s^2))) (combine a b)) + c
  | None => 0 end.
(** Position of the image of an atom under a symmetry operation. *)
Definition image_of (op : mat * vec) (p : vec) : vec := vadd (mv (fst op) p) (snd op).
(** Displacement (Debye-Waller) factor of that image: exp(-8 pi^2 U sin^2/l^2), or
    exp(-2 pi^2 (h^2 a*^2 U11 + ... + 2 h k a* b* U12)) with the indices h, k, l seen by that image. *)
Definition displacement_factor (st : structure) (u : cell6) (a : atom) (op : mat * vec) (h : vec) : R :=
  match at_adp a with
  | Uiso v => exp (- (8 * PI^2 * v * (sintl u h)^2))
  | Uani u11 u22 u33 u23 u13 u12 =>
      let g := mv (mT (fst op)) h in
      let cs := st_cellstar st u in
      let x := vx g * vx cs in let y := vy g * vy cs in let z := vz g * vz cs in
      exp (- (2 * PI^2 * (x^2 * u11 + y^2 * u22 + z^2 * u33 + 2 * y * z * u23 + 2 * x * z * u13 + 2 * x * y * u12)))
  | NoAdp => 1 end.
(** F(h) = sum over atoms and operations of population x displacement factor x
    (f + f' + i f'') x exp(2 pi i h.r). *)
Definition term (st : structure) (u : cell6) (h : vec) (trig : R -> R -> R -> R) (a : atom) (op : mat * vec) : R :=
  at_occ a * at_multi a / INR (List.length (st_ops st)) * displacement_factor st u a op h *
  trig (2 * PI * dot h (image_of op (at_pos a))) (form_factor st (at_type a) (sintl u h) + fst (dispersion_of st (at_type a))) (snd (dispersion_of st (at_type a))).
Definition F_sum (st : structure) (u : cell6) (h : vec) (trig : R -> R -> R -> R) : R :=
  sum_list (map (fun a => sum_list (map (term st u h trig a) (st_ops st))) (st_atoms st)).
Definition F_re (st : structure) (u : cell6) (h : vec) : R := F_sum st u h (fun ph f fpp => f * cos ph - fpp * sin ph).
Definition F_im (st : structure) (u : cell6) (h : vec) : R := F_sum st u h (fun ph f fpp => f * sin ph + fpp * cos ph).
Definition intensity (F : R * R) : R := fst F ^ 2 + snd F ^ 2.
(** Every atom type is in the form factor table. *)
Definition known_types (st : structure) : Prop := forall a, In a (st_atoms st) -> st_formfactor st (at_type a) <> None.
Definition no_dispersion (st : structure) : Prop := forall a, In a (st_atoms st) -> snd (dispersion_of st (at_type a)) = 0.

(** ** Lattices and symmetry *)
(** Three edges with the lengths and angles of the unit cell. *)
Definition lattice_of (u : cell6) (a b c : vec) : Prop :=
  0 < c_a u /\ 0 < c_b u /\ 0 < c_c u /\ det (M3 a b c) <> 0 /\
  norm a = c_a u /\ norm b = c_b u /\ norm c = c_c u /\
  dot b c = c_b u * c_c u * cos (c_alpha u * (PI / 180)) /\
  dot a c = c_a u * c_c u * cos (c_beta u * (PI / 180)) /\
  dot a b = c_a u * c_b u * cos (c_gamma u * (PI / 180)).
Definition integer_vec (v : vec) : Prop := exists x y z : Z, v = V3 (IZR x) (IZR y) (IZR z).
(** First p, then g. *)
Definition op_after (g p : mat * vec) : mat * vec := (mm (fst g) (fst p), vadd (mv (fst g) (snd p)) (snd g)).
(** The same operation up to a lattice translation. *)
Definition same_op (p q : mat * vec) : Prop := fst p = fst q /\ integer_vec (vsub (snd p) (snd q)).
(** g maps the list of operations onto itself, up to lattice translations. *)
Definition closed_under (ops : list (mat * vec)) (g : mat * vec) : Prop :=
  exists ops', Permutation ops' ops /\ Forall2 same_op (map (op_after g) ops) ops'.
(** The metric of the cell does not change under the rotation part of g. *)
Definition metric_symmetry (u : cell6) (g : mat * vec) : Prop := forall h, sintl u (mv (mT (fst g)) h) = sintl u h.
