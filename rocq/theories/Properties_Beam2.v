(** Generated by tools/gen_properties.py from PBeam2.v: the property theorems,
    verbatim, each closed by [exact]. Contains nothing else. *)
From Verif Require Import Vec Spec MMotion PMotion MLaue PLaue MMesh SMesh PMesh MScattering MBeam MBeam2 SBeam SBeam2 PBeam.
From Coq Require Import Sorted.
From Verif Require Import PBeam2.
Open Scope R_scope.

(** C23: the rows of a beam's half-space table are distinct and in increasing order. *)
Theorem C23_rows_sorted : forall q vs dir wl pol b i j h k,
  make_beam q vs dir wl pol = Ok b -> (i < j)%nat ->
  nth_error (b_halfspaces b) i = Some h -> nth_error (b_halfspaces b) j = Some k -> row_before h k.
Proof. exact pC23_rows_sorted. Qed.
Print Assumptions C23_rows_sorted.

(** C25: when some constraints are tight at the LP point, the step returned by the least-squares
    solve moves exactly 1e-5 into each of them (when any step can), and the moved point is
    returned if the other constraints leave room for it. *)
Theorem C25_vertex_repair : forall lp hs x slack d r,
  lp hs = Some (x, slack) -> lp_answer hs x slack -> (forall h, In h hs -> unit (hs_n h)) ->
  (exists h, In h hs /\ tight x h) ->
  (forall h, In h hs -> tight x h -> dot (hs_n h) d = - / 10^5) ->
  find_feasible lp solve_step hs = Ok r ->
  exists dx, (forall h, In h hs -> tight x h -> dot (hs_n h) (vadd x dx) + hs_d h = - / 10^5) /\
    ((forall h, In h hs -> ~ tight x h -> dot (hs_n h) x + hs_d h < - (norm dx + / 10^8)) -> r = Some (vadd x dx)).
Proof. exact pC25_vertex_repair. Qed.
Print Assumptions C25_vertex_repair.

(** C25 finding: if all tight constraints contain a common direction - in particular if one or two
    are tight - the least-squares matrix is singular and the call raises LinAlgError. *)
Theorem C25_edge_raises : forall lp hs x slack u,
  lp hs = Some (x, slack) -> lp_answer hs x slack ->
  (exists h, In h hs /\ tight x h) -> u <> vzero -> (forall h, In h hs -> tight x h -> dot (hs_n h) u = 0) ->
  find_feasible lp solve_step hs = Err LinAlgError.
Proof. exact pC25_edge_raises. Qed.
Print Assumptions C25_edge_raises.

(** C27: between two sampled times no coordinate of the translation grows by 3/4 of any radius,
    and the rotation by 1.5 degrees. *)
Theorem C27_step_bound : forall q vs m centres radii mask ts r k t t',
  candidate_spheres q vs m centres radii = Ok (mask, ts) -> List.length centres = List.length radii ->
  (forall r, In r radii -> 0 < r) -> In r radii -> nth_error ts k = Some t -> nth_error ts (S k) = Some t' ->
  Rabs (vx (m_trans m)) * (t' - t) < 3/4 * r /\ Rabs (vy (m_trans m)) * (t' - t) < 3/4 * r /\ Rabs (vz (m_trans m)) * (t' - t) < 3/4 * r /\
  m_angle m * (t' - t) < 3/2 * (PI / 180).
Proof. exact pC27_step_bound. Qed.
Print Assumptions C27_step_bound.

(** C27 finding: the docstring's bounds (half a radius, one degree) do not hold. *)
Theorem C27_documented_step_refuted : exists m mask ts t t',
  make_motion (V3 0 0 1) (5/2 * (PI / 180)) (V3 (145/100) 0 0) vzero = Ok m /\
  candidate_spheres cube_qhull cube_pts m [vzero] [1] = Ok (mask, ts) /\
  nth_error ts 0 = Some t /\ nth_error ts 1 = Some t' /\
  1 / 2 < vx (m_trans m) * (t' - t) /\ PI / 180 < m_angle m * (t' - t).
Proof. exact pC27_documented_step_refuted. Qed.
Print Assumptions C27_documented_step_refuted.

Example C25_repair_nonvacuous : exists d, lp_answer cube_hs (V3 1 1 1) [0; 2; 0; 2; 0; 2] /\
  (forall h, In h cube_hs -> unit (hs_n h)) /\ (exists h, In h cube_hs /\ tight (V3 1 1 1) h) /\
  (forall h, In h cube_hs -> tight (V3 1 1 1) h -> dot (hs_n h) d = - / 10^5) /\
  exists p, find_feasible cube_corner_lp solve_step cube_hs = Ok (Some p).
Proof. exact xC25_repair. Qed.

Example C25_edge_nonvacuous : exists u, lp_answer cube_hs (V3 1 1 0) [0; 2; 0; 2; 1; 1] /\ (exists h, In h cube_hs /\ tight (V3 1 1 0) h) /\ u <> vzero /\
  (forall h, In h cube_hs -> tight (V3 1 1 0) h -> dot (hs_n h) u = 0) /\ find_feasible cube_edge_lp solve_step cube_hs = Err LinAlgError.
Proof. exact xC25_edge. Qed.

