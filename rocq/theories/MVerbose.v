(** * Model of what xrd_simulator prints while rendering: utils.py:105-124 _print_progress, the verbose
    branches of detector.py (309-316, 674, 722-749, 896-900, 1152-1156, 1232-1236, 1546-1551).
    No proofs in this file.  The computations themselves are those of MDetector and MRender. *)
From Verif Require Import Vec MMotion MLaue MMesh MScattering MStrain MBeam MPolycrystal MDetector MClip MRender.
Open Scope R_scope.

(** What reaches the terminal: a printed line, one state of the progress bar (message, number of full
    blocks, percentage, whether a line break follows), or a warning with its four counts. *)
Inductive output :=
| Line (s : string)
| Bar (message : string) (blocks : Z) (percent : R) (break : bool)
| RadiusLimited (wanted : num)
| Invalid (total infinite non_positive nan : nat).
(** A computation that prints: the output so far and a result or an exception (no code of its own). *)
Definition logged (A : Type) := (list output * result A)%type.
Definition done {A} (x : result A) : logged A := ([], x).
Definition and_then {A B} (x : logged A) (k : A -> logged B) : logged B :=
  match snd x with
  | Ok a => ((fst x ++ fst (k a))%list, snd (k a))
  | Err e => (fst x, Err e)
  end.

(** str(n) of a nonnegative integer (detector.py:899, 1155, 1550). *)
Definition digit (d : nat) : string := String (Ascii.ascii_of_nat (48 + d)) EmptyString.
Fixpoint digits (fuel n : nat) : string :=
  match fuel with
  | O => EmptyString
  | S f => if Nat.ltb n 10 then digit n else (digits f (n / 10) ++ digit (n mod 10))%string
  end.
Definition str (n : nat) : string := digits (S n) n.

(** utils.py:105-124 _print_progress; np.round(x, 1) rounds halves to even. *)
Definition print_progress (fraction : R) (message : string) : logged unit :=
  if Nat.leb (String.length message) 55
  then ([Bar message (ztrunc (fraction * 40)) (IZR (rint (100 * fraction * 10)) / 10) (Reqb fraction 1)], Ok tt)
  else ([], Err AssertionError).
(** detector.py:896, 1152, 1546: only in verbose mode. *)
Definition progress (verbose : bool) (fraction : R) (message : string) : logged unit :=
  if verbose then print_progress fraction message else done (Ok tt).

(** detector.py:309-311: the argument, else the dictionary's entry, else True. *)
Definition resolve (arg entry : option bool) : bool :=
  match arg with Some v => v | None => match entry with Some v => v | None => true end end.

(** detector.py:718-749: counts over the rows that hit the detector. *)
Definition is_inf (x : num) : bool := match x with PInf | NInf => true | _ => false end.
Definition is_nan (x : num) : bool := match x with NaN => true | _ => false end.
Definition count {A} (f : A -> bool) (l : list A) : nat := List.length (filter f l).
Definition invalid_report (rows : list (list num)) : output :=
  Invalid (count (fun r => negb (valid_intensity r)) rows) (count (fun r => is_inf (ncol r 29)) rows)
    (count (fun r => nle (ncol r 29) (Fin 0) && negb (is_inf (ncol r 29))) rows) (count (fun r => is_nan (ncol r 29)) rows).
(** detector.py:599-755 peaks_detector_intersection with its warning. *)
Definition project_io (verbose : bool) (z : bool) (d : detector) (pd : peaks_dict) (frames : Z) : logged peaks_dict :=
  let rows := map (fun r => add_intensity d (add_frame frames r)) (filter (hit_mask d) (map (add_hit z d) (pd_peaks pd))) in
  ((if forallb (fun r => Nat.leb 25 (List.length r)) (pd_peaks pd)
       && (verbose && existsb (fun r => negb (valid_intensity r)) rows)
    then [invalid_report rows] else []),
   project z d pd frames).

(** detector.py:883-944, the loop of the micro method: one bar before each batch. *)
Fixpoint g_loop_io (verbose : bool) (d : detector) (n nb : nat) (k start : nat) (im : frames3) (bs : list (list (list num)))
  : logged frames3 :=
  match bs with
  | [] => done (Ok im)
  | b :: rest =>
      let stop := (start + List.length b)%nat in
      and_then (progress verbose (INR stop / INR n) ("[Micro] Batch " ++ str (k + 1) ++ "/" ++ str nb)) (fun _ =>
      and_then (done (index_put im (List.concat (map (g_deposits d) b)))) (fun im' =>
      g_loop_io verbose d n nb (k + 1) stop im' rest))
  end.
Definition micro_io (verbose : bool) (e : render_env) (d : detector) (rows : list (list num)) (frames : nat) : logged frames3 :=
  let bs := batches (g_batch_size (re_free_micro e)) rows in
  g_loop_io verbose d (List.length rows) (List.length bs) 0 0 (zeros3 frames (d_nz d) (d_ny d)) bs.

(** detector.py:1219-1236: radius before the cap (6 doublings reach 128 from 8). *)
Definition airy_wanted (d : detector) (max_fz : num) : num :=
  match max_fz with
  | PInf => PInf
  | NaN => NaN
  | NInf => Fin (airy_radius_loop (d_sigma d) (d_threshold d / 2) 8 6)
  | Fin x => Fin (airy_radius_loop (d_sigma d) (d_threshold d / 2) (Rmax (4 * x) 8) 6)
  end.
Definition radius_note (verbose : bool) (z : bool) (d : detector) (rows : list (list num)) : list output :=
  let r := airy_wanted d (nmax_list (map (first_zero z d) rows)) in
  if verbose && nlt (Fin 128) r then [RadiusLimited r] else [].
(** detector.py:1111-1161, the loop of the nano method: one bar after each batch. *)
Fixpoint airy_loop_io (verbose : bool) (z : bool) (j1 : R -> R) (d : detector) (psf : kernel) (frames : nat)
  (n : nat) (k start : nat) (im : frames3) (bs : list (list (list num))) : logged frames3 :=
  match bs with
  | [] => done (Ok im)
  | b :: rest =>
      let stop := (start + List.length b)%nat in
      and_then (radius_note verbose z d b, airy_batch z j1 d psf frames im b) (fun im' =>
      and_then (progress verbose (INR stop / INR n) ("[Nano] Batch " ++ str (k + 1) ++ ", n=" ++ str (List.length b))) (fun _ =>
      airy_loop_io verbose z j1 d psf frames n (k + 1) stop im' rest))
  end.
Definition nano_io (verbose : bool) (e : render_env) (d : detector) (rows : list (list num)) (frames : nat) : logged frames3 :=
  let z := re_z e in
  match rows with
  | [] => done (Ok (zeros3 frames (d_nz d) (d_ny d)))
  | _ =>
      and_then (done (psf_kernel d)) (fun psf =>
      and_then (done (gather rows (re_argsort e (map (airy_memory z d) rows)))) (fun sorted =>
      match airy_batches (airy_memory z d) (re_free_nano e * 1024^3) sorted (List.length sorted) with
      | None => done (Err RuntimeError)
      | Some bs =>
          and_then (airy_loop_io verbose z (re_j1 e) d psf frames (List.length rows) 0 0 (zeros3 frames (d_nz d) (d_ny d)) bs)
            (fun im => done (Ok (conv3 psf im)))
      end))
  end.

(** detector.py:1487, 1531-1551: the rows frame by frame (unique() sorts), in table order within a frame. *)
Definition by_frame (rows : list (list num)) (frames : nat) : list (nat * list num) :=
  List.concat (map (fun f => filter (fun kr => Reqb (fcol (snd kr) 28) (INR f)) (combine (seq 0 (List.length rows)) rows)) (seq 0 frames)).
(** detector.py:1543-1583: one bar before each peak; an exception ends the output.  (Exceptions outside of
    the treatment of a peak come at the end in the model.) *)
Fixpoint macro_bars (verbose : bool) (e : render_env) (d : detector) (b : beam) (me : mesh) (m : motion)
  (n done_ : nat) (l : list (nat * list num)) : logged unit :=
  match l with
  | [] => done (Ok tt)
  | kr :: rest =>
      and_then (progress verbose (INR (done_ + 1) / INR n) ("[Macro] Peak " ++ str (done_ + 1) ++ "/" ++ str n)) (fun _ =>
      and_then (done (macro_deposits e d b me m (fst kr) (snd kr))) (fun _ =>
      macro_bars verbose e d b me m n (done_ + 1) rest))
  end.
(** The assertion of utils.py:115 for the messages of the macro method. *)
Definition macro_messages_fit (n : nat) : bool :=
  forallb (fun k => Nat.leb (String.length ("[Macro] Peak " ++ str k ++ "/" ++ str n)) 55) (seq 1 n).
Definition macro_io (verbose : bool) (e : render_env) (d : detector) (pd : peaks_dict) (rows : list (list num)) (frames : nat) : logged frames3 :=
  (fst (macro_bars verbose e d (pd_beam pd) (pd_mesh pd) (pd_motion pd) (List.length rows) 0 (by_frame rows frames)),
   if negb verbose || macro_messages_fit (List.length rows) then macro_method e d pd rows frames else Err AssertionError).

(** detector.py:232-380 render with its output. *)
Definition render_io (verbose entry : option bool) (e : render_env) (d : detector) (pd : peaks_dict) (frames_to_render : Z)
  (method : string) (macro_limit : option R) (micro_limit : R) : logged (frames3 * peaks_dict) :=
  let v := resolve verbose entry in
  let frames := if (frames_to_render <? 1)%Z then 1%Z else frames_to_render in
  let n := Z.to_nat frames in
  let note := if ((frames_to_render <? 1)%Z && v)%bool then [Line "[Detector.render] frames_to_render < 1, setting to 1"] else [] in
  and_then (note, Ok tt) (fun _ =>
  and_then (project_io v (re_z e) d pd frames) (fun out =>
  let rows := pd_peaks out in
  and_then
    (if String.eqb method "macro" then macro_io v e d out rows n
     else if String.eqb method "micro" then micro_io v e d rows n
     else if String.eqb method "nano" then nano_io v e d rows n
     else if String.eqb method "auto" then
       let mac := match macro_limit with Some x => x | None => default_macro_limit d end in
       and_then (macro_io v e d out (filter (large mac) rows) n) (fun ma =>
       and_then (micro_io v e d (filter (medium mac micro_limit) rows) n) (fun mi =>
       and_then (nano_io v e d (filter (small micro_limit) rows) n) (fun na =>
       done (Ok (add3 (add3 (add3 (zeros3 n (d_nz d) (d_ny d)) na) ma) mi)))))
     else done (Err ValueError)) (fun im =>
  done (Ok (im, out))))).
