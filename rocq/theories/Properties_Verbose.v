(** Generated by tools/gen_properties.py from PVerbose.v: the property theorems,
    verbatim, each closed by [exact]. Contains nothing else. *)
From Verif Require Import Vec Spec MMotion PMotion MLaue PLaue MMesh SMesh PMesh MScattering SScattering PScattering.
From Verif Require Import MStrain SStrain PStrain MBeam SBeam PBeam MPolycrystal SPolycrystal PPolycrystal.
From Verif Require Import MDetector SDetector PDetector PDetector2 PDetector3 MClip MRender SRender PRender PRender2 PKernel SNano PNano PRenderEx PRender3 MVerbose SVerbose.
From Coq Require Import Permutation.
From Verif Require Import PVerbose.
Open Scope R_scope.

(** The numbers in the messages are the decimal notation of the numbers meant. *)
Theorem C85_numbers : forall n, reads (str n) n.
Proof. exact pC85_numbers. Qed.
Print Assumptions C85_numbers.

(** Without verbose mode nothing is printed and nothing else changes. *)
Theorem C85_quiet : forall arg entry e d pd frames method macro_limit micro_limit,
  permutes (re_argsort e) -> resolve arg entry = false ->
  render_io arg entry e d pd frames method macro_limit micro_limit = ([], render e d pd frames method macro_limit micro_limit).
Proof. exact pC85_quiet. Qed.
Print Assumptions C85_quiet.

(** With or without verbose mode: the same frames, the same table or the same exception. *)
Theorem C85_same_result : forall arg entry e d pd frames method macro_limit micro_limit,
  permutes (re_argsort e) -> INR (List.length (pd_peaks pd)) < 10^18 ->
  snd (render_io arg entry e d pd frames method macro_limit micro_limit) = render e d pd frames method macro_limit micro_limit.
Proof. exact pC85_same_result. Qed.
Print Assumptions C85_same_result.

(** The progress bar of the Gaussian method: one bar per batch, at growing numbers of finished peaks,
    the last one at 100 %. *)
Theorem C85_micro_progress : forall arg entry e d pd frames macro_limit micro_limit im out,
  resolve arg entry = true -> INR (List.length (pd_peaks pd)) < 10^18 ->
  snd (render_io arg entry e d pd frames "micro" macro_limit micro_limit) = Ok (im, out) ->
  micro_reports (fst (render_io arg entry e d pd frames "micro" macro_limit micro_limit)) (List.length (pd_peaks out)).
Proof. exact pC85_micro_progress. Qed.
Print Assumptions C85_micro_progress.

Theorem C85_nano_progress : forall arg entry e d pd frames macro_limit micro_limit im out,
  permutes (re_argsort e) -> resolve arg entry = true -> INR (List.length (pd_peaks pd)) < 10^18 ->
  snd (render_io arg entry e d pd frames "nano" macro_limit micro_limit) = Ok (im, out) ->
  nano_reports (fst (render_io arg entry e d pd frames "nano" macro_limit micro_limit)) (List.length (pd_peaks out)).
Proof. exact pC85_nano_progress. Qed.
Print Assumptions C85_nano_progress.

Theorem C85_macro_progress : forall arg entry e d pd frames macro_limit micro_limit im out,
  fresh pd -> resolve arg entry = true -> INR (List.length (pd_peaks pd)) < 10^18 ->
  snd (render_io arg entry e d pd frames "macro" macro_limit micro_limit) = Ok (im, out) ->
  macro_reports (fst (render_io arg entry e d pd frames "macro" macro_limit micro_limit)) (List.length (pd_peaks out)).
Proof. exact pC85_macro_progress. Qed.
Print Assumptions C85_macro_progress.

(** The automatic method runs the bar once for each class of peaks. *)
Theorem C85_auto_progress : forall arg entry e d pd frames macro_limit micro_limit im out,
  permutes (re_argsort e) -> fresh pd -> resolve arg entry = true -> INR (List.length (pd_peaks pd)) < 10^18 ->
  snd (render_io arg entry e d pd frames "auto" macro_limit micro_limit) = Ok (im, out) ->
  exists l1 l2 l3 n1 n2 n3,
    filter is_bar (fst (render_io arg entry e d pd frames "auto" macro_limit micro_limit)) = filter is_bar (l1 ++ l2 ++ l3) /\
    macro_reports l1 n1 /\ micro_reports l2 n2 /\ nano_reports l3 n3 /\
    n3 = count (fun r => nlt (ncol r 21) (Fin micro_limit)) (pd_peaks out) /\
    n1 = count (fun r => nle (Fin (match macro_limit with Some x => x | None => default_macro_limit d end)) (ncol r 21)) (pd_peaks out) /\
    n2 = count (fun r => negb (nle (Fin (match macro_limit with Some x => x | None => default_macro_limit d end)) (ncol r 21)) &&
                         negb (nlt (ncol r 21) (Fin micro_limit)))%bool (pd_peaks out).
Proof. exact pC85_auto_progress. Qed.
Print Assumptions C85_auto_progress.

(** The line about the number of frames is printed exactly in verbose mode with a number below one. *)
Theorem C85_note : forall arg entry e d pd frames method macro_limit micro_limit,
  let lines := filter is_line (fst (render_io arg entry e d pd frames method macro_limit micro_limit)) in
  (resolve arg entry = true /\ (frames < 1)%Z -> lines = [Line "[Detector.render] frames_to_render < 1, setting to 1"]) /\
  (resolve arg entry = false \/ (1 <= frames)%Z -> lines = []).
Proof. exact pC85_note. Qed.
Print Assumptions C85_note.

(** verbose: the argument counts, else the entry of the dictionary, else yes. *)
Theorem C85_resolve : forall arg entry, resolve arg entry = true <->
  (arg = Some true \/ arg = None /\ (entry = Some true \/ entry = None)).
Proof. exact pC85_resolve. Qed.
Print Assumptions C85_resolve.

(** The warning: at most one, exactly when peaks that reach the detector are dropped, with their number and
    the numbers of infinite, non-positive and undefined intensities, which add up to it. *)
Theorem C85_warning : forall arg entry e d pd frames method macro_limit micro_limit im out,
  fresh pd -> resolve arg entry = true ->
  snd (render_io arg entry e d pd frames method macro_limit micro_limit) = Ok (im, out) ->
  let reached := on_detector (re_z e) d pd in
  let warnings := filter is_warning (fst (render_io arg entry e d pd frames method macro_limit micro_limit)) in
  (List.length (pd_peaks out) <= List.length reached)%nat /\
  (List.length (pd_peaks out) = List.length reached -> warnings = []) /\
  ((List.length (pd_peaks out) < List.length reached)%nat -> exists infinite non_positive nan,
     warnings = [Invalid (List.length reached - List.length (pd_peaks out)) infinite non_positive nan] /\
     infinite = count (fun r => is_inf (intensity d r)) reached /\
     non_positive = count (fun r => match intensity d r with Fin x => Rleb x 0 | _ => false end) reached /\
     nan = count (fun r => is_nan (intensity d r)) reached /\
     (List.length reached - List.length (pd_peaks out) = infinite + non_positive + nan)%nat).
Proof. exact pC85_warning. Qed.
Print Assumptions C85_warning.

(** Two peaks reach the detector and one of them has no intensity: one bar, one warning, one line. *)
Example C85_warned_nonvacuous : exists e d pd im out, built d /\ fresh pd /\ permutes (re_argsort e) /\ INR (List.length (pd_peaks pd)) < 10^18 /\
  resolve None None = true /\ snd (render_io None None e d pd 0 "micro" None 1) = Ok (im, out) /\
  List.length (pd_peaks out) = 1%nat /\ List.length (on_detector (re_z e) d pd) = 2%nat.
Proof. exact xC85_warned. Qed.

