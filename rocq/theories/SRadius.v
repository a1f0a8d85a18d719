(** * Specification vocabulary: the line about a limited window of the Airy discs (C85). *)
From Verif Require Import Vec MMotion MLaue MBeam MPolycrystal SPolycrystal MDetector MRender MVerbose SVerbose SNano.
From Coq Require Import Permutation.
Open Scope R_scope.

(** What is printed about the batches of the 'nano' method: bars and lines about a limited window. *)
Definition is_radius (o : output) : bool := match o with RadiusLimited _ => true | _ => false end.
Definition about_batches (o : output) : bool := (is_bar o || is_radius o)%bool.
(** The point spread at a distance of r pixels, relative to its centre. *)
Definition spread_tail (d : detector) (r : R) : R :=
  if Req_EM_T (d_sigma d) 0 then 0 else exp (- r^2 / (2 * (d_sigma d)^2)).
(** The first zero (in pixels) of the broadest disc of a batch. *)
Definition broadest (d : detector) (pd : peaks_dict) (b : list (list num)) (f : R) : Prop :=
  (exists r, In r b /\ disc_radius d pd r = f) /\ forall r, In r b -> disc_radius d pd r <= f.
(** The window radius wanted for it: four times the first zero and at least 8 pixels, doubled until the point spread falls below
    half the threshold or 128 pixels are exceeded, and no longer. *)
Definition asks_for (d : detector) (f R : R) : Prop := exists k : nat,
  R = Rmax (4 * f) 8 * 2^k /\ (128 < R \/ spread_tail d R < d_threshold d / 2) /\
  forall i : nat, (i < k)%nat -> Rmax (4 * f) 8 * 2^i <= 128 /\ d_threshold d / 2 <= spread_tail d (Rmax (4 * f) 8 * 2^i).
(** Batch after batch: the line with the wanted radius if that is more than 128 pixels, then the bar of the batch. *)
Fixpoint batch_log (k : nat) (bs : list (list (list num))) (Rs : list R) (log : list output) : Prop :=
  match bs, Rs with
  | [], [] => log = []
  | b :: bs', r :: Rs' => exists blocks percent break rest,
      log = ((if Rlt_dec 128 r then [RadiusLimited (Fin r)] else []) ++
             Bar ("[Nano] Batch " ++ str (k + 1) ++ ", n=" ++ str (List.length b)) blocks percent break :: rest)%list /\
      batch_log (k + 1) bs' Rs' rest
  | _, _ => False
  end.
Definition radius_reports (d : detector) (pd : peaks_dict) (rows : list (list num)) (log : list output) : Prop :=
  exists bs Rs, Permutation (List.concat bs) rows /\
    Forall2 (fun b r => exists f, broadest d pd b f /\ asks_for d f r) bs Rs /\ batch_log 0 bs Rs log.
