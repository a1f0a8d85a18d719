(** Generated by tools/gen_properties.py from PRender.v: the property theorems,
    verbatim, each closed by [exact]. Contains nothing else. *)
From Verif Require Import Vec Spec MMotion PMotion MLaue PLaue MMesh SMesh PMesh MScattering SScattering PScattering.
From Verif Require Import MStrain SStrain PStrain MBeam SBeam PBeam MPolycrystal SPolycrystal PPolycrystal.
From Verif Require Import MDetector SDetector PDetector PDetector2 PDetector3 PDetector4 PPolycrystal3 MClip MRender SRender.
From Coq Require Import FunctionalExtensionality Permutation.
From Verif Require Import PRender.
Open Scope R_scope.

(** The micro image does not depend on how the peaks are batched. *)
Theorem C38_batch_size_irrelevant : forall d bs bs' rows n, (0 < bs)%nat -> (0 < bs')%nat ->
  render_gauss d bs rows n = render_gauss d bs' rows n.
Proof. exact pC38_batch_size_irrelevant. Qed.
Print Assumptions C38_batch_size_irrelevant.

(** The batch size is between 10000 and 200000 peaks for every memory figure. *)
Theorem C38_batch_size_range : forall free, (10000 <= Z.of_nat (g_batch_size free) <= 200000)%Z.
Proof. exact pC38_batch_size_range. Qed.
Print Assumptions C38_batch_size_range.

(** Since the figure is in gigabytes but used as bytes, the advertised adaptation to
    the free memory never happens below 1000 GB. *)
Theorem C38_batch_size_never_adapts : forall free, free < 1000 -> Z.of_nat (g_batch_size free) = 50000%Z.
Proof. exact pC38_batch_size_never_adapts. Qed.
Print Assumptions C38_batch_size_never_adapts.

(** Through the public call: free memory and every other external input of the
    renderers are irrelevant for method "micro". *)
Theorem C38_memory_irrelevant : forall e e' d pd frames ml mi, re_z e = re_z e' ->
  render e d pd frames "micro" ml mi = render e' d pd frames "micro" ml mi.
Proof. exact pC38_memory_irrelevant. Qed.
Print Assumptions C38_memory_irrelevant.

