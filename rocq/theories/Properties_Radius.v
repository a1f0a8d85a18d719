(** Generated by tools/gen_properties.py from PRadius.v: the property theorems,
    verbatim, each closed by [exact]. Contains nothing else. *)
From Verif Require Import Vec MMotion MLaue MMesh MScattering MStrain MBeam MPolycrystal SPolycrystal MDetector MClip MRender SRender MVerbose SVerbose SNano.
From Verif Require Import PDetector PDetector2 PDetector4 PRender PNano PKernel PExtra PVerbose SDetector SRadius.
From Coq Require Import Permutation.
From Verif Require Import PRadius.
Open Scope list_scope. Open Scope R_scope.

(** C85. The line about a limited window appears for exactly the batches that want more than 128 pixels, with the wanted radius,
    just before the bar of the batch. *)
Theorem C85_radius_note : forall arg entry e d pd frames macro_limit micro_limit im out,
  permutes (re_argsort e) -> fresh pd -> 0 < d_pz d -> resolve arg entry = true -> INR (List.length (pd_peaks pd)) < 10^18 ->
  snd (render_io arg entry e d pd frames "nano" macro_limit micro_limit) = Ok (im, out) ->
  (forall r, In r (pd_peaks out) -> proper_disc out r) ->
  radius_reports d out (pd_peaks out) (filter about_batches (fst (render_io arg entry e d pd frames "nano" macro_limit micro_limit))).
Proof. exact pC85_radius_note. Qed.
Print Assumptions C85_radius_note.

(** C85. The other two methods never print it; 'auto' prints it for its 'nano' peaks only. *)
Theorem C85_radius_only_nano : forall arg entry e d pd frames macro_limit micro_limit,
  (forall o, In o (fst (render_io arg entry e d pd frames "macro" macro_limit micro_limit)) -> is_radius o = false) /\
  (forall o, In o (fst (render_io arg entry e d pd frames "micro" macro_limit micro_limit)) -> is_radius o = false).
Proof. exact pC85_radius_only_nano. Qed.
Print Assumptions C85_radius_only_nano.

Theorem C85_auto_radius : forall arg entry e d pd frames macro_limit micro_limit im out,
  permutes (re_argsort e) -> fresh pd -> 0 < d_pz d -> resolve arg entry = true -> INR (List.length (pd_peaks pd)) < 10^18 ->
  snd (render_io arg entry e d pd frames "auto" macro_limit micro_limit) = Ok (im, out) ->
  (forall r, In r (pd_peaks out) -> proper_disc out r) ->
  exists bars rest, filter about_batches (fst (render_io arg entry e d pd frames "auto" macro_limit micro_limit)) = (bars ++ rest)%list /\
    Forall (fun o => is_bar o = true) bars /\
    radius_reports d out (filter (fun r => nlt (ncol r 21) (Fin micro_limit)) (pd_peaks out)) rest.
Proof. exact pC85_auto_radius. Qed.
Print Assumptions C85_auto_radius.

