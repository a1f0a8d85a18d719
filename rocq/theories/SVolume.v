(** * Specification vocabulary: samples made with the public constructors only (C102). *)
From Verif Require Import Vec Spec MMotion MLaue MMesh SMesh MBeam MPolycrystal SPolycrystal.
Open Scope R_scope.

(** A motion returned by the constructor. *)
Definition made_motion (m : motion) : Prop := exists axis angle trans origin, make_motion axis angle trans origin = Ok m.
(** Mesh operations whose motions come from the constructor (rotate builds its own). *)
Definition made_op (o : mesh_op) : Prop := match o with OUpdate m _ => made_motion m | _ => True end.
(** Samples: a mesh from vertices, moved in any way, made into a polycrystal, which is then transformed, diffracted,
    saved and loaded in any order. *)
Inductive made_pc (x : xtal) : polycrystal -> Prop :=
| mpc_make coord enod me0 ops me o s phs mp p :
    build_mesh coord enod = Ok me0 -> Forall made_op ops -> mesh_run me0 ops = Ok me ->
    Forall (reachable_phase x) phs ->
    make_polycrystal x me o s phs mp = Ok p -> made_pc x p
| mpc_transform p m t : made_pc x p -> made_motion m -> made_pc x (transform p m t)
| mpc_diffract z p b m lo hi det : made_pc x p -> made_pc x (snd (diffract z x p b m lo hi det))
| mpc_reload p : made_pc x p -> made_pc x (reload p).
(** Every element is a tetrahedron with corners in general position. *)
Definition solid_at (coord : list vec) (enod : list (nat * nat * nat * nat)) : Prop :=
  forall e na nb nc nd, nth_error enod e = Some (na, nb, nc, nd) ->
  exists a b c d, nth_error coord na = Some a /\ nth_error coord nb = Some b /\
    nth_error coord nc = Some c /\ nth_error coord nd = Some d /\ signed_vol6 a b c d <> 0.
Definition solid (me : mesh) : Prop := solid_at (me_coord me) (me_enod me).
