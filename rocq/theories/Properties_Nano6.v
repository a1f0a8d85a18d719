(** Generated by tools/gen_properties.py from PNano6.v: the property theorems,
    verbatim, each closed by [exact]. Contains nothing else. *)
From Verif Require Import Vec Spec MMotion MLaue MMesh MScattering MStrain MBeam MPolycrystal SPolycrystal MDetector SDetector.
From Verif Require Import MRender SRender SNano PLaue PScattering PBeam PDetector PDetector2 PDetector3 PDetector4 PRender PRender2 PRender2b PRenderEx PRender3 PKernel PKernel2 PKernel3 PMacro PNano PNanoEx PNano2 PNano3 PNano4 PNano5.
From Coq Require Import Permutation FunctionalExtensionality.
From Verif Require Import PNano6.
Open Scope R_scope.

(** The only way the method can fail is torch's complaint about tensors that do not fit together. *)
Theorem C100_only_runtime_error : forall e d pd frames ml mi x, fresh pd -> built d -> permutes (re_argsort e) ->
  render e d pd frames "nano" ml mi = Err x -> x = RuntimeError.
Proof. exact pC100_only_runtime_error. Qed.
Print Assumptions C100_only_runtime_error.

(** A picture is made, whatever the machine, when the sampled discs have a whole radius: each disc is at most two pixels
    or at least 32 pixels in radius, or four times its radius is a whole number. *)
Theorem C100_whole_radii : forall e d pd frames ml mi out, fresh pd -> built d -> 0 < d_pz d -> permutes (re_argsort e) ->
  project (re_z e) d pd (if (frames <? 1)%Z then 1%Z else frames) = Ok out ->
  (forall r, In r (pd_peaks out) -> proper_disc out r) ->
  (forall r, In r (pd_peaks out) -> disc_radius d out r <= 2 \/ (exists n, 4 * disc_radius d out r = IZR n) \/ 32 <= disc_radius d out r) ->
  exists im, render e d pd frames "nano" ml mi = Ok (im, out).
Proof. exact pC100_whole_radii. Qed.
Print Assumptions C100_whole_radii.

(** ... or when all discs have the same radius. *)
Theorem C100_equal_radii : forall e d pd frames ml mi out, fresh pd -> built d -> 0 < d_pz d -> permutes (re_argsort e) ->
  project (re_z e) d pd (if (frames <? 1)%Z then 1%Z else frames) = Ok out ->
  (forall r, In r (pd_peaks out) -> proper_disc out r) ->
  (forall r r', In r (pd_peaks out) -> In r' (pd_peaks out) -> disc_radius d out r = disc_radius d out r') ->
  exists im, render e d pd frames "nano" ml mi = Ok (im, out).
Proof. exact pC100_equal_radii. Qed.
Print Assumptions C100_equal_radii.

(** ... or when the machine reports no free memory, so that the peaks are drawn one by one. *)
Theorem C100_one_by_one : forall e d pd frames ml mi out, fresh pd -> built d -> 0 < d_pz d -> permutes (re_argsort e) -> re_free_nano e = 0 ->
  project (re_z e) d pd (if (frames <? 1)%Z then 1%Z else frames) = Ok out ->
  (forall r, In r (pd_peaks out) -> proper_disc out r) ->
  exists im, render e d pd frames "nano" ml mi = Ok (im, out).
Proof. exact pC100_one_by_one. Qed.
Print Assumptions C100_one_by_one.

(** Two discs on two frames, one of radius 17/8 pixels and one narrower than half a pixel: a machine without free memory
    makes the picture, a machine with 1 GB raises RuntimeError.  This holds for every j1 that, like the Bessel function,
    is bounded by half its argument and is not tiny at one point, and every correct sorting routine. *)
Theorem C100_mixed_radii_refuted : forall j1 argsort, (forall y, Rabs (2 * j1 y) <= Rabs y) -> 1/10 <= Rabs (j1 (38317/10000 * sqrt (145/2) / (17/8))) ->
  permutes argsort -> descending argsort ->
  exists d pd e im out, built d /\ fresh pd /\ volumes_ok pd /\ 0 < d_pz d /\ re_j1 e = j1 /\ re_argsort e = argsort /\
    (forall r, In r (pd_peaks out) -> proper_disc out r) /\
    render (with_memory 0 e) d pd 2 "nano" None 1 = Ok (im, out) /\
    render (with_memory 1 e) d pd 2 "nano" None 1 = Err RuntimeError.
Proof. exact pC100_mixed_radii_refuted. Qed.
Print Assumptions C100_mixed_radii_refuted.

(** Functions as required exist (the Bessel function is about 0.186 at that point). *)
Example C100_bessel_like_nonvacuous : exists j1 : R -> R, (forall y, Rabs (2 * j1 y) <= Rabs y) /\ 1/10 <= Rabs (j1 (38317/10000 * sqrt (145/2) / (17/8))).
Proof. exact xC100_bessel_like. Qed.

(** Discs of three and two pixels: every machine makes the picture. *)
Example C100_whole_nonvacuous : exists e d pd out, built d /\ fresh pd /\ 0 < d_pz d /\ permutes (re_argsort e) /\ project (re_z e) d pd 2 = Ok out /\
  List.length (pd_peaks out) = 2%nat /\ (forall r, In r (pd_peaks out) -> proper_disc out r) /\
  (forall r, In r (pd_peaks out) -> disc_radius d out r <= 2 \/ (exists n, 4 * disc_radius d out r = IZR n) \/ 32 <= disc_radius d out r) /\
  (exists r, In r (pd_peaks out) /\ disc_radius d out r = 3).
Proof. exact xC100_whole. Qed.

(** The search of C43 on a kernel of a single entry: the kernel is left as it is. *)
Theorem C43_single_entry : forall thr k, k_n k = 1%nat ->
  k_n (crop k (crop_radius thr k)) = 1%nat /\ k_at (crop k (crop_radius thr k)) 0 0 = k_at k 0 0.
Proof. exact pC43_single_entry. Qed.
Print Assumptions C43_single_entry.

