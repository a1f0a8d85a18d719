(** Generated by tools/gen_properties.py from PScale4.v: the property theorems,
    verbatim, each closed by [exact]. Contains nothing else. *)
From Verif Require Import Vec Spec MMotion MLaue MMesh MScattering MStrain MBeam SBeam MPolycrystal SPolycrystal MDetector MClip MRender SRender SNano SFrame SScale.
From Verif Require Import PMotion PLaue PMesh PBeam PStrain PPolycrystal PPolycrystal2 PPolycrystal3 PDetector PDetector2 PDetector3 PRender PRender2 PRender3 PEvents PEnd2 PFrame PFrame2 PFrame3 PFrame4 PScale PScale2 PScale3 PNumber4.
From Verif Require Import SDetector.
From Verif Require Import PScale4.
Open Scope list_scope. Open Scope R_scope.

(** The same experiment with every length multiplied by s: the same exception, or the same table row by
    row with lengths times s, volumes times s^3 and Scherrer widths divided by s. *)
Theorem C94_same_table : forall s z x p p2 b b2 m m2 lo hi d d2, 0 < s -> reachable_pc x p ->
  scaled_sample s p p2 -> scaled_beam s b b2 -> scaled_motion s m m2 -> scaled_choice s d d2 ->
  let out := diffract z x p b m lo hi (cone_arg z d) in let out2 := diffract z x p2 b2 m2 lo hi (cone_arg z d2) in
  (forall e, fst out2 = Err e <-> fst out = Err e) /\
  (forall pd, fst out = Ok pd -> exists pd2, fst out2 = Ok pd2 /\ Forall2 (scaled_row s pd pd2) (pd_peaks pd) (pd_peaks pd2)) /\
  scaled_sample s (snd out) (snd out2).
Proof. exact pC94_same_table. Qed.
Print Assumptions C94_same_table.

(** ... the enlarged detector sees the same reflections. *)
Theorem C94_same_hits : forall s z z' x p p2 b b2 m m2 lo hi d d2 q q2 pd pd2 frames out, 0 < s -> reachable_pc x p ->
  scaled_sample s p p2 -> scaled_beam s b b2 -> scaled_motion s m m2 -> scaled_choice s d d2 -> scaled_detector s q q2 ->
  fst (diffract z x p b m lo hi (cone_arg z d)) = Ok pd -> fst (diffract z x p2 b2 m2 lo hi (cone_arg z d2)) = Ok pd2 ->
  project z' q pd frames = Ok out ->
  exists out2, project z' q2 pd2 frames = Ok out2 /\ Forall2 (scaled_row s out out2) (pd_peaks out) (pd_peaks out2).
Proof. exact pC94_same_hits. Qed.
Print Assumptions C94_same_hits.

(** ... and the 'micro' picture is s^3 times as bright, up to what the 1e-6 cut-off of single deposits removes:
    per pixel at most max(1, s^3) 1e-6 for each peak of the frame, never in the other direction. *)
Theorem C94_picture : forall s z x p p2 b b2 m m2 lo hi d d2 q q2 pd pd2 e frames ml mi im out ml2 mi2 im2 out2, 0 < s -> reachable_pc x p ->
  scaled_sample s p p2 -> scaled_beam s b b2 -> scaled_motion s m m2 -> scaled_choice s d d2 -> scaled_detector s q q2 ->
  fst (diffract z x p b m lo hi (cone_arg z d)) = Ok pd -> fst (diffract z x p2 b2 m2 lo hi (cone_arg z d2)) = Ok pd2 ->
  render e q pd frames "micro" ml mi = Ok (im, out) -> render e q2 pd2 frames "micro" ml2 mi2 = Ok (im2, out2) ->
  has_shape im2 (f_n im) (f_h im) (f_w im) /\
  forall f i j, in_image im f i j -> exists v w, f_at im f i j = Fin v /\ f_at im2 f i j = Fin w /\
    Rabs (w - s ^ 3 * v) <= Rmax 1 (s ^ 3) / 10 ^ 6 * INR (List.length (rows_in_frame out f)) /\
    (1 <= s -> s ^ 3 * v <= w) /\ (s <= 1 -> w <= s ^ 3 * v).
Proof. exact pC94_picture. Qed.
Print Assumptions C94_picture.

(** The Airy discs of the 'nano' method do not keep their size in pixels: they shrink by s. *)
Theorem C94_nano_refuted : forall s z x p p2 b b2 m m2 lo hi d d2 q q2 pd pd2 z' frames out out2, 0 < s -> reachable_pc x p ->
  scaled_sample s p p2 -> scaled_beam s b b2 -> scaled_motion s m m2 -> scaled_choice s d d2 -> scaled_detector s q q2 ->
  fst (diffract z x p b m lo hi (cone_arg z d)) = Ok pd -> fst (diffract z x p2 b2 m2 lo hi (cone_arg z d2)) = Ok pd2 ->
  project z' q pd frames = Ok out -> project z' q2 pd2 frames = Ok out2 ->
  Forall2 (fun r r2 => disc_radius q2 out2 r2 = disc_radius q out r / s) (pd_peaks out) (pd_peaks out2).
Proof. exact pC94_nano_refuted. Qed.
Print Assumptions C94_nano_refuted.

(** ** Non-vacuity *)
Example C94_doubled_nonvacuous : exists z x p p2 b b2 m m2 lo hi d d2 pd pd2 e im out im2 out2,
  reachable_pc x p /\ scaled_sample 2 p p2 /\ scaled_beam 2 b b2 /\ scaled_motion 2 m m2 /\ scaled_detector 2 d d2 /\
  fst (diffract z x p b m lo hi (cone_arg z None)) = Ok pd /\ fst (diffract z x p2 b2 m2 lo hi (cone_arg z None)) = Ok pd2 /\ pd_peaks pd <> [] /\
  render e d pd 1 "micro" None 1 = Ok (im, out) /\ render e d2 pd2 1 "micro" None 1 = Ok (im2, out2).
Proof. exact xC94_doubled. Qed.

