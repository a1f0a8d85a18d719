(** Generated by tools/gen_properties.py from PKernel3.v: the property theorems,
    verbatim, each closed by [exact]. Contains nothing else. *)
From Verif Require Import Vec Spec MMotion MLaue MMesh MScattering MStrain MBeam MPolycrystal SPolycrystal MDetector SDetector.
From Verif Require Import MRender SRender PLaue PScattering PBeam PDetector PDetector2 PDetector3 PDetector4 PRender PRender2 PRender2b PRenderEx PRender3 PKernel PKernel2.
From Coq Require Import Permutation.
From Verif Require Import PKernel3.
Open Scope R_scope.

(** The kernel radius is the least r >= 1 at which the Gaussian falls below half the
    threshold, or the cap when there is none up to the cap. *)
Theorem C46_radius : forall d, d_sigma d <> 0 -> (1 <= d_max_radius d)%Z ->
  let r := psf_radius d in
  (1 <= r <= d_max_radius d)%Z /\
  (forall c, (1 <= c < r)%Z -> d_threshold d / 2 <= exp (- (IZR c)^2 / (2 * (d_sigma d)^2))) /\
  (r = d_max_radius d \/ exp (- (IZR r)^2 / (2 * (d_sigma d)^2)) < d_threshold d / 2).
Proof. exact pC46_radius. Qed.
Print Assumptions C46_radius.

(** Every detector that could be constructed has a point spread kernel (of radius between 0 and the cap). *)
Theorem C46_built_has_kernel : forall d, built d -> (0 <= psf_radius d <= d_max_radius d)%Z /\ exists k, psf_kernel d = Ok k.
Proof. exact pC46_built_has_kernel. Qed.
Print Assumptions C46_built_has_kernel.

(** For every sigma <> 0 the kernel has odd side 2 r + 1, positive entries that add up
    to 1, and is symmetric under transposition and under reversal of either axis. *)
Theorem C46_kernel : forall d, d_sigma d <> 0 -> (0 <= d_max_radius d)%Z ->
  exists k g, psf_kernel d = Ok k /\ entries k g /\ k_n k = Z.to_nat (2 * psf_radius d + 1) /\
    (forall a b, 0 < g a b) /\ entry_total (k_n k) g = 1 /\ (forall a b, g a b = g b a) /\
    (forall a b, (a < k_n k)%nat -> g a b = g (k_n k - 1 - a)%nat b).
Proof. exact pC46_kernel. Qed.
Print Assumptions C46_kernel.

(** The kernel is the Gaussian exp (-(x^2+y^2)/(2 sigma^2)) of the distance to its central
    entry, up to one positive factor. *)
Theorem C46_gaussian : forall d, d_sigma d <> 0 -> (0 <= d_max_radius d)%Z ->
  exists k c, psf_kernel d = Ok k /\ 0 < c /\ k_n k = Z.to_nat (2 * psf_radius d + 1) /\
    forall a b, (a < k_n k)%nat -> (b < k_n k)%nat ->
      k_at k a b = Fin (c * exp (- ((INR a - IZR (psf_radius d))^2 + (INR b - IZR (psf_radius d))^2) / (2 * (d_sigma d)^2))).
Proof. exact pC46_gaussian. Qed.
Print Assumptions C46_gaussian.

Theorem C46_zero_sigma_nan : forall d, d_sigma d = 0 -> (0 <= d_max_radius d)%Z ->
  exists k, psf_kernel d = Ok k /\ (0 < k_n k)%nat /\ forall a b, k_at k a b = NaN.
Proof. exact pC46_zero_sigma_nan. Qed.
Print Assumptions C46_zero_sigma_nan.

(** With gaussian_sigma = 0 a nano image of a table with a visible peak is NaN in
    every pixel of every frame. *)
Theorem C46_zero_sigma_nano_nan : forall e d pd frames ml mi im out, d_sigma d = 0 -> (0 <= d_max_radius d)%Z ->
  render e d pd frames "nano" ml mi = Ok (im, out) -> pd_peaks out <> [] ->
  forall f i j, f_at im f i j = NaN.
Proof. exact pC46_zero_sigma_nano_nan. Qed.
Print Assumptions C46_zero_sigma_nano_nan.

(** ... and so is every frame of a macro image in which a peak is recorded. *)
Theorem C46_zero_sigma_macro_nan : forall e d pd frames ml mi im out r f i j, d_sigma d = 0 -> (0 <= d_max_radius d)%Z ->
  render e d pd frames "macro" ml mi = Ok (im, out) -> fresh pd -> In r (pd_peaks out) -> read out r "frame" = INR f ->
  f_at im f i j = NaN.
Proof. exact pC46_zero_sigma_macro_nan. Qed.
Print Assumptions C46_zero_sigma_macro_nan.

(** Convolution with the point-spread function keeps the total of a frame whose
    non-zero pixels are at least the kernel radius away from the border. *)
Theorem C46_convolution_conserves : forall d k im f, d_sigma d <> 0 -> (0 <= d_max_radius d)%Z -> psf_kernel d = Ok k ->
  (forall i j, in_image im f i j -> is_finite (f_at im f i j) = true) -> (f < f_n im)%nat ->
  (forall i j, in_image im f i j -> f_at im f i j <> Fin 0 ->
     (psf_radius d <= Z.of_nat i /\ Z.of_nat i + psf_radius d < Z.of_nat (f_h im) /\
      psf_radius d <= Z.of_nat j /\ Z.of_nat j + psf_radius d < Z.of_nat (f_w im))%Z) ->
  has_shape (conv3 k im) (f_n im) (f_h im) (f_w im) /\ frame_total (conv3 k im) f = frame_total im f.
Proof. exact pC46_convolution_conserves. Qed.
Print Assumptions C46_convolution_conserves.

(** Anywhere, the total of a non-negative frame does not increase. *)
Theorem C46_convolution_loses_only : forall d k im f, d_sigma d <> 0 -> (0 <= d_max_radius d)%Z -> psf_kernel d = Ok k -> (f < f_n im)%nat ->
  (forall i j, in_image im f i j -> exists x, f_at im f i j = Fin x /\ 0 <= x) ->
  exists t t', frame_total im f = Fin t /\ frame_total (conv3 k im) f = Fin t' /\ 0 <= t' <= t.
Proof. exact pC46_convolution_loses_only. Qed.
Print Assumptions C46_convolution_loses_only.

(** sigma 1, threshold 1/2, cap 2: a 9 x 9 image with one bright pixel. *)
Example C46_delta_nonvacuous : exists d im, built d /\ d_sigma d <> 0 /\ (1 <= d_max_radius d)%Z /\ (psf_radius d <= 4)%Z /\
  has_shape im 1 9 9 /\ frame_total im 0 = Fin 5 /\ forall i j, (f_at im 0 i j = if Nat.eqb i 4 && Nat.eqb j 4 then Fin 5 else Fin 0).
Proof. exact xC46_delta. Qed.

Example C46_zero_nonvacuous : exists d, built d /\ d_sigma d = 0 /\ (0 <= d_max_radius d)%Z.
Proof. exact xC46_zero. Qed.

