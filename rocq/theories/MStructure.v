(** * Model of xrd_simulator/structure_factors.py.  No proofs in this file.
    A torch tensor is a list of rows; the two- and three-dimensional tensors of the code are
    nested lists in the same axis order. *)
From Verif Require Import Vec MMotion MLaue MMesh MScattering MBeam MPolycrystal.
From Coq Require Import String.
Open Scope R_scope.

(** What xfab reads from the CIF file (structure_factors.py:158-163): one record per atom. *)
Inductive adp := Uiso (u : R) | Uani (u11 u22 u33 u23 u13 u12 : R) | NoAdp.
Record atom := Atom { at_type : string; at_pos : vec; at_occ : R; at_multi : R; at_adp : adp }.
(** The unit cell [a, b, c, alpha, beta, gamma], angles in degrees. *)
Record cell6 := Cell { c_a : R; c_b : R; c_c : R; c_alpha : R; c_beta : R; c_gamma : R }.
(** Everything external to the computation: the atoms and dispersion table of the CIF file, the
    space group's rotations and translations (165-169), xfab's form factor table (four a, four b,
    c; atomlib.formfactor) and the first three reciprocal cell lengths (xfab cell_invert). *)
Record structure := Structure {
  st_atoms : list atom; st_dispersion : string -> option (R * R);
  st_ops : list (mat * vec); st_formfactor : string -> option (list R * list R * R);
  st_cellstar : cell6 -> vec }.

(** 42-61, one reflection.  (torch.sqrt of a negative number is NaN, Coq's sqrt of it is 0; for
    the cell of a lattice part1 is not negative: pC61_sintl.) *)
Definition sintl (u : cell6) (hkl : vec) : R :=
  let a := c_a u in let b := c_b u in let c := c_c u in
  let calp := cos (c_alpha u * (PI / 180)) in let cbet := cos (c_beta u * (PI / 180)) in let cgam := cos (c_gamma u * (PI / 180)) in
  let h := vx hkl in let k := vy hkl in let l := vz hkl in
  let part1 := (h * h / a^2) * (1 - calp^2) + (k * k / b^2) * (1 - cbet^2) + (l * l / c^2) * (1 - cgam^2)
    + 2 * h * k * (calp * cbet - cgam) / (a * b) + 2 * h * l * (calp * cgam - cbet) / (a * c)
    + 2 * k * l * (cbet * cgam - calp) / (b * c) in
  let part2 := 1 - (calp^2 + cbet^2 + cgam^2) + 2 * calp * cbet * cgam in
  sqrt part1 / (2 * sqrt part2).
(** 27-61 *)
Definition sintl_batch (u : cell6) (hkl : list vec) : list R := map (sintl u) hkl.
(** Elementwise operations and sum(dim=0) of tensors with H columns. *)
Definition zip2 (f : R -> R -> R) (l m : list R) : list R := map (fun p => f (fst p) (snd p)) (combine l m).
Definition sum0 (H : nat) (rows : list (list R)) : list R := fold_right (zip2 Rplus) (repeat 0 H) rows.
(** 64-96: an unknown atom type is a KeyError; no atoms at all an IndexError (a one-dimensional
    empty tensor indexed twice). *)
Definition form_factor_row (co : list R * list R * R) (stl : list R) : list R :=
  let '(a, b, c) := co in
  map (fun s => sum_list (map (fun ab => fst ab * exp (- snd ab * (s * s))) (combine a b)) + c) stl.
Definition form_factors_batch (tbl : string -> option (list R * list R * R)) (types : list string) (stl : list R) : result (list (list R)) :=
  let* co := traverse (fun t => match tbl t with Some c => Ok c | None => Err KeyError end) types in
  match co with [] => Err IndexError | _ => Ok (map (fun c => form_factor_row c stl) co) end.
(** 99-112 *)
Definition uij_to_betaij (cs : vec) (u11 u22 u33 u23 u13 u12 : R) : mat :=
  let f := 2 * PI^2 in
  M3 (V3 (f * vx cs * vx cs * u11) (f * vx cs * vy cs * u12) (f * vx cs * vz cs * u13))
     (V3 (f * vy cs * vx cs * u12) (f * vy cs * vy cs * u22) (f * vy cs * vz cs * u23))
     (V3 (f * vz cs * vx cs * u13) (f * vz cs * vy cs * u23) (f * vz cs * vz cs * u33)).
(** 196-202: fp and fpp of an atom type *)
Definition dispersion_of (st : structure) (t : string) : R * R :=
  match st_dispersion st t with Some d => d | None => (0, 0) end.
(** 191 *)
Definition site_pop (st : structure) (a : atom) : R := at_occ a * at_multi a / INR (List.length (st_ops st)).
(** 206-229: row of expij *)
Definition expij_row (stl : list R) (a : atom) : list R :=
  match at_adp a with Uiso u => map (fun s => exp (- 8 * PI^2 * u * (s * s))) stl | _ => repeat 1 (List.length stl) end.
(** 231-237: phases of one atom, (S, H) *)
Definition phase_rows (st : structure) (hkl : list vec) (a : atom) : list (list R) :=
  map (fun op => map (fun h => 2 * PI * dot h (vadd (mv (fst op) (at_pos a)) (snd op))) hkl) (st_ops st).
Definition is_uani (a : atom) : bool := match at_adp a with Uani _ _ _ _ _ _ => true | _ => false end.
(** 268-281: contribution of a non-Uani atom, summed over the operations first *)
Definition iso_rows (st : structure) (hkl : list vec) (stl : list R) (af : atom * list R) : list R * list R :=
  let '(a, f) := af in
  let H := List.length hkl in
  let ph := phase_rows st hkl a in
  let cos_sum := sum0 H (map (map cos) ph) in
  let sin_sum := sum0 H (map (map sin) ph) in
  let '(fp, fpp) := dispersion_of st (at_type a) in
  let ei := map (Rmult (site_pop st a)) (expij_row stl a) in
  let ft := map (fun x => x + fp) f in
  (zip2 Rmult ei (zip2 Rminus (zip2 Rmult cos_sum ft) (map (fun s => s * fpp) sin_sum)),
   zip2 Rmult ei (zip2 Rplus (zip2 Rmult sin_sum ft) (map (fun c => c * fpp) cos_sum))).
(** 283-312: contribution of a Uani atom; the displacement factor depends on the operation *)
Definition ani_rows (st : structure) (u : cell6) (hkl : list vec) (af : atom * list R) : list R * list R :=
  let '(a, f) := af in
  let H := List.length hkl in
  let beta := match at_adp a with Uani a1 a2 a3 a4 a5 a6 => uij_to_betaij (st_cellstar st u) a1 a2 a3 a4 a5 a6 | _ => mzero end in
  let betarot := map (fun op => mm (fst op) (mm beta (mT (fst op)))) (st_ops st) in
  let expij := map (fun B => map (fun h => exp (- dot (mv (mT B) h) h)) hkl) betarot in
  let ph := phase_rows st hkl a in
  let '(fp, fpp) := dispersion_of st (at_type a) in
  let ft := map (fun x => x + fp) f in
  let re := map (fun ep => zip2 Rmult (fst ep) (zip2 Rminus (zip2 Rmult (map cos (snd ep)) ft) (map (fun x => sin x * fpp) (snd ep)))) (combine expij ph) in
  let im := map (fun ep => zip2 Rmult (fst ep) (zip2 Rplus (zip2 Rmult (map sin (snd ep)) ft) (map (fun x => cos x * fpp) (snd ep)))) (combine expij ph) in
  (map (Rmult (site_pop st a)) (sum0 H re), map (Rmult (site_pop st a)) (sum0 H im)).
(** 118-316.  Uani atoms are accumulated after all others. *)
Definition structure_factors (st : structure) (u : cell6) (hkl : list vec) : result (list (R * R)) :=
  let stl := sintl_batch u hkl in
  let* ff := form_factors_batch (st_formfactor st) (map at_type (st_atoms st)) stl in
  let rows := combine (st_atoms st) ff in
  let H := List.length hkl in
  let non := map (iso_rows st hkl stl) (filter (fun af => negb (is_uani (fst af))) rows) in
  let ani := map (ani_rows st u hkl) (filter (fun af => is_uani (fst af)) rows) in
  let freal := fold_left (zip2 Rplus) (map fst ani) (sum0 H (map fst non)) in
  let fimag := fold_left (zip2 Rplus) (map snd ani) (sum0 H (map snd non)) in
  Ok (combine freal fimag).
