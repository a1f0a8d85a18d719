(** Generated by tools/gen_properties.py from PSample2.v: the property theorems,
    verbatim, each closed by [exact]. Contains nothing else. *)
From Verif Require Import Vec Spec MLaue MMesh MSample SBeam SSample PLaue PMesh PLevelset.
From Verif Require Import PSample2.
Open Scope R_scope.

(** As many points as asked for, all of them in the convex hull. *)
Theorem C82_in_hull : forall points simplices draws out, points <> [] -> (forall d, In d draws -> draw_ok d) ->
  sample_hull points simplices draws = Ok out ->
  List.length out = List.length draws /\ forall p, In p out -> in_hull points p.
Proof. exact pC82_in_hull. Qed.
Print Assumptions C82_in_hull.

(** A sample comes from the piece over surface triangle i exactly when u * (total volume) falls into the interval
    between the volumes of the pieces before i and those up to i: the probability is the piece's share of the volume. *)
Theorem C82_by_volume : forall points simplices draws out r vols k u w i p,
  points <> [] -> (forall d, In d draws -> draw_ok d) -> sample_hull points simplices draws = Ok out ->
  centre points r -> Forall2 (piece_volume points r) simplices vols ->
  nth_error draws k = Some (u, w) -> nth_error out k = Some p -> (i < List.length simplices)%nat ->
  sum_list (firstn i vols) <= u * sum_list vols < sum_list (firstn (S i) vols) ->
  exists a b c xa xb xc, nth_error simplices i = Some (a, b, c) /\ nth_error points a = Some xa /\ nth_error points b = Some xb /\ nth_error points c = Some xc /\
    in_tetra r xa xb xc p /\
    p = vscale (/ (fst (fst (fst w)) + snd (fst (fst w)) + snd (fst w) + snd w))
          (vadd (vscale (fst (fst (fst w))) r) (vadd (vscale (snd (fst (fst w))) xa) (vadd (vscale (snd (fst w)) xb) (vscale (snd w) xc)))).
Proof. exact pC82_by_volume. Qed.
Print Assumptions C82_by_volume.

(** Every point of a piece of positive volume can be drawn. *)
Theorem C82_reachable : forall points simplices r i a b c xa xb xc p,
  points <> [] -> valid_simplices points simplices -> centre points r ->
  nth_error simplices i = Some (a, b, c) -> nth_error points a = Some xa -> nth_error points b = Some xb -> nth_error points c = Some xc ->
  signed_vol6 r xa xb xc <> 0 -> in_tetra r xa xb xc p ->
  exists d, draw_ok d /\ sample_hull points simplices [d] = Ok [p].
Proof. exact pC82_reachable. Qed.
Print Assumptions C82_reachable.

(** A hull without volume (all pieces flat) is refused. *)
Theorem C82_flat_raises : forall points simplices draws r, points <> [] -> valid_simplices points simplices -> centre points r ->
  (forall a b c xa xb xc, In (a, b, c) simplices -> nth_error points a = Some xa -> nth_error points b = Some xb -> nth_error points c = Some xc -> signed_vol6 r xa xb xc = 0) ->
  sample_hull points simplices draws = Err ValueError.
Proof. exact pC82_flat_raises. Qed.
Print Assumptions C82_flat_raises.

Example C82_tetra_nonvacuous : exists points simplices r vols, points <> [] /\ valid_simplices points simplices /\ centre points r /\
  Forall2 (piece_volume points r) simplices vols /\ List.length simplices = 4%nat /\ (forall v, In v vols -> v = 1/24) /\
  forall draws, exists out, sample_hull points simplices draws = Ok out.
Proof. exact xC82_tetra. Qed.

