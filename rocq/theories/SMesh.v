(** * Specification vocabulary for meshes (observable attributes only). *)
From Verif Require Import Vec Spec MMotion MMesh.

(** Two meshes agree in every public attribute (the hidden meshio points are
    not compared). *)
Definition same_geometry (x y : mesh) : Prop :=
  me_coord x = me_coord y /\ me_enod x = me_enod y /\ me_efaces x = me_efaces y /\
  me_enormals x = me_enormals y /\ me_ecentroids x = me_ecentroids y /\
  me_eradius x = me_eradius y /\ me_espherecentroids x = me_espherecentroids y /\
  me_centroid x = me_centroid y /\ me_evolumes x = me_evolumes y.
(** The corner points of element i of a mesh. *)
Definition corners (me : mesh) (i : nat) (a b c d : vec) : Prop :=
  exists na nb nc nd, nth_error (me_enod me) i = Some (na, nb, nc, nd) /\
    nth_error (me_coord me) na = Some a /\ nth_error (me_coord me) nb = Some b /\
    nth_error (me_coord me) nc = Some c /\ nth_error (me_coord me) nd = Some d.
(** Operations built from exactly unit rotation axes (C04 shows what the
    constructor's tolerance does otherwise) that move by a rigid motion. *)
Definition exact_move (o : mesh_op) : Prop :=
  match o with
  | OTranslate _ => False
  | OUpdate m _ => unit (m_axis m)
  | ORotate a _ => unit a
  end.
