(** Generated by tools/gen_properties.py from PRadiusEx.v: the property theorems,
    verbatim, each closed by [exact]. Contains nothing else. *)
From Verif Require Import Vec MMotion MLaue MMesh MScattering MStrain MBeam MPolycrystal SPolycrystal MDetector MClip MRender SRender MVerbose SVerbose SNano.
From Verif Require Import PDetector PDetector2 PDetector4 PRender PRenderEx PNano PNanoEx PNano4 PExtra PVerbose PRadius SDetector SRadius.
From Coq Require Import Permutation.
From Verif Require Import PRadiusEx.
Open Scope list_scope. Open Scope R_scope.

Example C85_limited_nonvacuous : exists arg entry e d pd im out, permutes (re_argsort e) /\ fresh pd /\ 0 < d_pz d /\ resolve arg entry = true /\ INR (List.length (pd_peaks pd)) < 10^18 /\
  snd (render_io arg entry e d pd 2 "nano" None 1) = Ok (im, out) /\ (forall r, In r (pd_peaks out) -> proper_disc out r) /\
  In (RadiusLimited (Fin 160)) (fst (render_io arg entry e d pd 2 "nano" None 1)).
Proof. exact xC85_limited. Qed.

