(** Generated by tools/gen_properties.py from PLinear2.v: the property theorems,
    verbatim, each closed by [exact]. Contains nothing else. *)
From Verif Require Import Vec MMotion MLaue MMesh MScattering MStrain MBeam MPolycrystal SPolycrystal MDetector SDetector MRender SRender SPassenger SLinear.
From Verif Require Import PMesh PPolycrystal PDetector PDetector2 PRender PRender2 PJoin2 PPass PPass2 PLinear.
From Coq Require Import FunctionalExtensionality String.
From Verif Require Import PLinear2.
Open Scope list_scope. Open Scope R_scope.

(** The picture of a table in which one switched-on factor is c times as large. *)
Theorem C103_linear : forall e d s c pd pd' frames method ml mi,
  fresh pd -> fresh pd' -> same_scene pd pd' -> 0 < c -> brightness_factor d s -> rescaled [s] c pd pd' ->
  method = "nano"%string \/ method = "macro"%string ->
  match render e d pd frames method ml mi, render e d pd' frames method ml mi with
  | Ok (im, out), Ok (im', out') => brighter c im im' /\ rescaled [s; "intensity_factors"%string] c out out'
  | Err x, Err x' => x = x'
  | _, _ => False
  end.
Proof. exact pC103_linear. Qed.
Print Assumptions C103_linear.

(** The automatic method, when no row falls into its middle class. *)
Theorem C103_auto : forall e d s c pd pd' frames ml mi,
  fresh pd -> fresh pd' -> same_scene pd pd' -> 0 < c -> brightness_factor d s -> rescaled [s] c pd pd' ->
  (forall r, In r (pd_peaks pd) -> is_medium (macro_limit_of d ml) mi pd r = false) ->
  match render e d pd frames "auto" ml mi, render e d pd' frames "auto" ml mi with
  | Ok (im, out), Ok (im', out') => brighter c im im' /\ rescaled [s; "intensity_factors"%string] c out out'
  | Err x, Err x' => x = x'
  | _, _ => False
  end.
Proof. exact pC103_auto. Qed.
Print Assumptions C103_auto.

(** A table in which the recorded volumes are c times as large: 'nano' pictures are c times as bright, 'macro' pictures do not change. *)
Theorem C103_volumes_nano : forall e d c pd pd' frames ml mi,
  fresh pd -> fresh pd' -> 0 < c -> rescaled ["volumes"%string] c pd pd' ->
  match render e d pd frames "nano" ml mi, render e d pd' frames "nano" ml mi with
  | Ok (im, out), Ok (im', out') => brighter c im im' /\ rescaled ["volumes"%string] c out out'
  | Err x, Err x' => x = x'
  | _, _ => False
  end.
Proof. exact pC103_volumes_nano. Qed.
Print Assumptions C103_volumes_nano.

Theorem C103_volumes_macro : forall e d c pd pd' frames ml mi,
  fresh pd -> fresh pd' -> same_scene pd pd' -> 0 < c -> rescaled ["volumes"%string] c pd pd' ->
  match render e d pd frames "macro" ml mi, render e d pd' frames "macro" ml mi with
  | Ok (im, out), Ok (im', out') => im = im' /\ rescaled ["volumes"%string] c out out'
  | Err x, Err x' => x = x'
  | _, _ => False
  end.
Proof. exact pC103_volumes_macro. Qed.
Print Assumptions C103_volumes_macro.

Theorem C103_micro_near : forall e d s c pd pd' frames ml mi im im' out out' f i j,
  fresh pd -> fresh pd' -> volumes_ok pd -> 0 < c -> brightness_factor d s -> rescaled [s] c pd pd' ->
  render e d pd frames "micro" ml mi = Ok (im, out) -> render e d pd' frames "micro" ml mi = Ok (im', out') -> in_image im f i j ->
  exists x x', f_at im f i j = Fin x /\ f_at im' f i j = Fin x' /\
    Rabs (x' - c * x) <= INR (List.length (rows_in_frame out f)) * (Rmax 1 c * / 10^6).
Proof. exact pC103_micro_near. Qed.
Print Assumptions C103_micro_near.

