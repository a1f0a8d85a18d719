(** * Specification vocabulary: what is printed during rendering (C85). *)
From Verif Require Import Vec MMotion MLaue MBeam MPolycrystal MDetector MRender MVerbose.
Open Scope R_scope.

(** The number a string of decimal digits stands for. *)
Fixpoint read_from (acc : nat) (s : string) : nat :=
  match s with
  | EmptyString => acc
  | String c rest => read_from (10 * acc + (Ascii.nat_of_ascii c - 48)) rest
  end.
Definition reads (s : string) (n : nat) : Prop := s <> EmptyString /\ read_from 0 s = n.
(** The state of the bar for a fraction f: whole fortieths, the percentage to one decimal, a line break at the end. *)
Definition bar_shows (o : output) (message : string) (f : R) : Prop :=
  exists blocks percent break, o = Bar message blocks percent break /\
    (0 <= blocks <= 40)%Z /\ IZR blocks <= 40 * f < IZR blocks + 1 /\
    0 <= percent <= 100 /\ Rabs (percent - 100 * f) <= 1/20 /\ (exists t : Z, percent = IZR t / 10) /\
    (break = true <-> f = 1).
Definition is_bar (o : output) : bool := match o with Bar _ _ _ _ => true | _ => false end.
Definition is_warning (o : output) : bool := match o with Invalid _ _ _ _ => true | _ => false end.
(** The bars of a log are those of a task of n steps reported at the given numbers of finished steps. *)
Definition reported (log : list output) (n : nat) (message : nat -> string) (finished : list nat) : Prop :=
  List.length (filter is_bar log) = List.length finished /\
  forall k e, nth_error finished k = Some e -> exists o, nth_error (filter is_bar log) k = Some o /\ bar_shows o (message k) (INR e / INR n).
(** 0 < first < second < ... < last = n. *)
Fixpoint rising (from : nat) (l : list nat) (n : nat) : Prop :=
  match l with
  | [] => from = n
  | e :: rest => (from < e)%nat /\ rising e rest n
  end.
(** Rows of a peak table whose ray reaches the detector. *)
Definition on_detector (z : bool) (d : detector) (pd : peaks_dict) : list (list num) :=
  filter (fun r => hit_mask d (add_hit z d r)) (pd_peaks pd).
Definition is_line (o : output) : bool := match o with Line _ => true | _ => false end.
(** The bars of the three methods for n peaks: batches of any positive size, or one bar per peak. *)
Definition micro_reports (log : list output) (n : nat) : Prop :=
  exists finished, rising 0 finished n /\
    reported log n (fun k => "[Micro] Batch " ++ str (k + 1) ++ "/" ++ str (List.length finished))%string finished.
Definition nano_reports (log : list output) (n : nat) : Prop :=
  exists finished, rising 0 finished n /\
    reported log n (fun k => "[Nano] Batch " ++ str (k + 1) ++ ", n=" ++ str (nth k finished 0 - nth k (0 :: finished) 0)%nat)%string finished.
Definition macro_reports (log : list output) (n : nat) : Prop :=
  rising 0 (seq 1 n) n /\ reported log n (fun k => "[Macro] Peak " ++ str (k + 1) ++ "/" ++ str n)%string (seq 1 n).
