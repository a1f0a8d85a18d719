(** Generated by tools/gen_properties.py from PRender3.v: the property theorems,
    verbatim, each closed by [exact]. Contains nothing else. *)
From Verif Require Import Vec Spec MMotion MLaue MMesh MStrain MBeam MPolycrystal SPolycrystal MDetector SDetector.
From Verif Require Import MRender SRender PLaue PBeam PPolycrystal3 PDetector PDetector2 PDetector3 PDetector4 PRender PRender2 PRenderEx.
From Verif Require Import PRender3.
Open Scope R_scope.

(** Whatever the method, a rendered image has max(1, frames) frames of the shape of
    the pixel grid. *)
Theorem C36_shape : forall e d pd frames method ml mi im out, render e d pd frames method ml mi = Ok (im, out) ->
  has_shape im (Z.to_nat (Z.max 1 frames)) (d_nz d) (d_ny d).
Proof. exact pC36_shape. Qed.
Print Assumptions C36_shape.

(** The second component of the result is what peaks_detector_intersection returns for
    the clamped frame count. *)
Theorem C36_dictionary : forall e d pd frames method ml mi im out, render e d pd frames method ml mi = Ok (im, out) ->
  project (re_z e) d pd (Z.max 1 frames) = Ok out.
Proof. exact pC36_dictionary. Qed.
Print Assumptions C36_dictionary.

(** Any other method string raises ValueError. *)
Theorem C36_unknown_method : forall e d pd frames method ml mi, fresh pd ->
  ~ In method ["macro"; "micro"; "nano"; "auto"]%string -> render e d pd frames method ml mi = Err ValueError.
Proof. exact pC36_unknown_method. Qed.
Print Assumptions C36_unknown_method.

(** When no peak is visible every supported method returns blank frames. *)
Theorem C36_nothing_visible : forall e d pd frames method ml mi out,
  In method ["macro"; "micro"; "nano"; "auto"]%string ->
  project (re_z e) d pd (Z.max 1 frames) = Ok out -> pd_peaks out = [] ->
  exists im, render e d pd frames method ml mi = Ok (im, out) /\
    has_shape im (Z.to_nat (Z.max 1 frames)) (d_nz d) (d_ny d) /\ blank im.
Proof. exact pC36_nothing_visible. Qed.
Print Assumptions C36_nothing_visible.

(** The empty table: blank frames. *)
Theorem C36_empty_table : forall e d pd frames method ml mi, pd_peaks pd = [] ->
  In method ["macro"; "micro"; "nano"; "auto"]%string ->
  exists im out, render e d pd frames method ml mi = Ok (im, out) /\
    has_shape im (Z.to_nat (Z.max 1 frames)) (d_nz d) (d_ny d) /\ blank im.
Proof. exact pC36_empty_table. Qed.
Print Assumptions C36_empty_table.

(** A negative frame count, a table with visible peaks. *)
Example C36_clamped_nonvacuous : exists e d pd im out, built d /\ fresh pd /\ render e d pd (-5) "micro" None 1 = Ok (im, out) /\
  has_shape im 1 9 9 /\ pd_peaks out <> [].
Proof. exact xC36_clamped. Qed.

(** The automatic image is the pixelwise sum of the macro image of the large grains,
    the micro image of the medium ones and the nano image of the small ones, each as
    rendered on its own; and it is produced exactly when all three are. *)
Theorem C37_auto_is_sum : forall e d pd frames ml mi im out, fresh pd ->
  render e d pd frames "auto" ml mi = Ok (im, out) ->
  exists ma mid na o1 o2 o3,
    render e d (restrict (is_large (macro_limit_of d ml)) pd) frames "macro" ml mi = Ok (ma, o1) /\
    render e d (restrict (is_medium (macro_limit_of d ml) mi) pd) frames "micro" ml mi = Ok (mid, o2) /\
    render e d (restrict (is_small mi) pd) frames "nano" ml mi = Ok (na, o3) /\
    forall f i j, in_image im f i j -> f_at im f i j = nadd (nadd (f_at na f i j) (f_at ma f i j)) (f_at mid f i j).
Proof. exact pC37_auto_is_sum. Qed.
Print Assumptions C37_auto_is_sum.

Theorem C37_auto_defined : forall e d pd frames ml mi ma mid na o1 o2 o3, fresh pd ->
  render e d (restrict (is_large (macro_limit_of d ml)) pd) frames "macro" ml mi = Ok (ma, o1) ->
  render e d (restrict (is_medium (macro_limit_of d ml) mi) pd) frames "micro" ml mi = Ok (mid, o2) ->
  render e d (restrict (is_small mi) pd) frames "nano" ml mi = Ok (na, o3) ->
  exists im out, render e d pd frames "auto" ml mi = Ok (im, out).
Proof. exact pC37_auto_defined. Qed.
Print Assumptions C37_auto_defined.

(** With ordered limits every row falls in exactly one class. *)
Theorem C37_exactly_one_class : forall mac mi pd r, mi <= mac ->
  (is_large mac pd r = true /\ is_medium mac mi pd r = false /\ is_small mi pd r = false) \/
  (is_large mac pd r = false /\ is_medium mac mi pd r = true /\ is_small mi pd r = false) \/
  (is_large mac pd r = false /\ is_medium mac mi pd r = false /\ is_small mi pd r = true).
Proof. exact pC37_exactly_one_class. Qed.
Print Assumptions C37_exactly_one_class.

(** A row belongs to some class for all limits; it belongs to two (large and small)
    exactly when macro_limit <= volume < micro_limit. *)
Theorem C37_double_class : forall mac mi pd r,
  (is_large mac pd r = true \/ is_medium mac mi pd r = true \/ is_small mi pd r = true) /\
  (is_medium mac mi pd r = true -> is_large mac pd r = false /\ is_small mi pd r = false) /\
  (is_large mac pd r = true /\ is_small mi pd r = true <-> exists v, volume_of pd r = Fin v /\ mac <= v < mi).
Proof. exact pC37_double_class. Qed.
Print Assumptions C37_double_class.

(** The default limits are ordered exactly when no pixel side is below 0.1. *)
Theorem C37_default_limits : forall d, 0 < d_py d -> 0 < d_pz d ->
  ((1/10)^3 <= macro_limit_of d None <-> 1/10 <= d_py d /\ 1/10 <= d_pz d).
Proof. exact pC37_default_limits. Qed.
Print Assumptions C37_default_limits.

(** Default limits on a detector with pixels of 0.05: a visible peak of volume 0.0005
    is rendered by macro and by nano. *)
Theorem C37_partition_refuted : exists d pd r, built d /\ fresh pd /\ In r (pd_peaks pd) /\
  (exists z out, project z d pd 1 = Ok out /\ pd_peaks out <> []) /\
  is_large (macro_limit_of d None) pd r = true /\ is_small ((1/10)^3) pd r = true.
Proof. exact pC37_partition_refuted. Qed.
Print Assumptions C37_partition_refuted.

Example C37_ordered_nonvacuous : exists d, built d /\ (1/10)^3 <= macro_limit_of d None.
Proof. exact xC37_ordered. Qed.

