(** * Specification vocabulary, independent of the model files.
    Only linear algebra (Vec.v) and elementary notions; nothing here mentions
    how the code computes anything. *)
From Verif Require Import Vec.

(** A map of space that preserves all distances and all signed volumes: a
    proper rigid motion. *)
Definition preserves_distances (f : vec -> vec) : Prop :=
  forall x y, dist (f x) (f y) = dist x y.
(** six times the signed volume of the tetrahedron (a,b,c,d) *)
Definition signed_vol6 (a b c d : vec) : R := triple (vsub b a) (vsub c a) (vsub d a).
Definition preserves_signed_volume (f : vec -> vec) : Prop :=
  forall a b c d, signed_vol6 (f a) (f b) (f c) (f d) = signed_vol6 a b c d.
Definition proper_rigid (f : vec -> vec) : Prop :=
  preserves_distances f /\ preserves_signed_volume f.

Definition unit (a : vec) : Prop := norm a = 1.
Definition orthogonal (a b : vec) : Prop := dot a b = 0.

(** Component of x along / across the unit direction a. *)
Definition along (a x : vec) : vec := vscale (dot a x) a.
Definition across (a x : vec) : vec := vsub x (along a x).

(** Right-handed rotation by angle th about the unit axis a through the zero
    vector: the axial part stays; the transverse part p turns in the plane
    spanned by (p, a x p), counter-clockwise seen from the tip of a. *)
Definition right_handed_rotation (a : vec) (th : R) (x : vec) : vec :=
  vadd (along a x)
       (vadd (vscale (cos th) (across a x)) (vscale (sin th) (cross a (across a x)))).

(** Elastic scattering / Laue condition for wave vector k and scattering vector G:
    the scattered wave vector has the length of the incoming one. *)
Definition laue_condition (k G : vec) : Prop := norm (vadd k G) = norm k.

(** n is the outward unit normal of the triangle (a,b,c) of a body whose
    remaining vertex is opp. *)
Definition outward_normal (a b c opp n : vec) : Prop :=
  unit n /\ orthogonal n (vsub b a) /\ orthogonal n (vsub c a) /\ dot n (vsub opp a) < 0.
(** the closed ball *)
Definition in_ball (c : vec) (r : R) (p : vec) : Prop := dist p c <= r.
