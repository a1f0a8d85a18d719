(** Generated by tools/gen_properties.py from PNano4.v: the property theorems,
    verbatim, each closed by [exact]. Contains nothing else. *)
From Verif Require Import Vec Spec MMotion MLaue MMesh MScattering MStrain MBeam MPolycrystal SPolycrystal MDetector SDetector.
From Verif Require Import MRender SRender SNano PLaue PScattering PBeam PDetector PDetector2 PDetector3 PDetector4 PRender PRender2 PRender2b PRenderEx PRender3 PKernel PKernel2 PKernel3 PMacro PNano PNanoEx PNano2 PNano3.
From Coq Require Import Permutation FunctionalExtensionality.
From Verif Require Import PNano4.
Open Scope R_scope.

(** A peak that is rendered on its own gets a kernel that is the Airy pattern around the middle of the
    kernel, whose first dark ring has the radius 1.1861 * width * |corner 0| / cos(incidence) / z-pixel. *)
Theorem C72_airy_shape : forall z j1 d psf pd r, 0 < d_pz d -> List.length r = 30%nat -> pd_columns pd = column_names ++ new_columns ->
  proper_disc pd r ->
  let x := 11861/10000 * read pd r "scherrer_fwhm" * norm (d_c0 d) / cos (read pd r "incident_angle" * PI / 180) / d_pz d in
  1/2 <= x < 10^8 -> d_sigma d <= x -> (x <= 2 \/ (exists n, 4 * x = IZR n) \/ 32 <= x) ->
  exists k c, airy_kernels z j1 d psf [r] = Ok [k] /\ 0 < c /\ Nat.odd (k_n k) = true /\
    forall a b, (a < k_n k)%nat -> (b < k_n k)%nat ->
      k_at k a b = Fin (c * airy_pattern j1 (sqrt ((INR a - INR (k_n k / 2))^2 + (INR b - INR (k_n k / 2))^2) / x)).
Proof. exact pC72_airy_shape. Qed.
Print Assumptions C72_airy_shape.

(** The distance from which the size of a disc is computed, for a ray from o that meets the plane of the
    detector at p (from the side the normal points to), is |corner 0| / D times the flight path |p - o|,
    D being the distance of the source from the plane of the detector. *)
Theorem C72_distance : forall z d v o s, built d -> 0 < s ->
  dot v (plane_normal (d_c0 d) (d_c1 d) (d_c2 d)) < 0 -> in_plane (d_c0 d) (d_c1 d) (d_c2 d) (ray_at o v s) ->
  exists zd yd a D, get_intersection z d (nfin v) (nfin o) = (zd, yd, Fin a) /\ airy_dist z d (Fin a) = Fin D /\ 0 <= a < 90 /\
    0 < plane_distance d o /\ D = norm (d_c0 d) / plane_distance d o * dist (ray_at o v s) o.
Proof. exact pC72_distance. Qed.
Print Assumptions C72_distance.

(** So it is the flight path only for sources whose distance from the plane equals |corner 0|; for a
    source at the origin it is never less than the flight path, and equal to it only if corner 0 is the
    foot of the perpendicular from the origin. *)
Theorem C72_distance_from_origin : forall z d v s, built d -> 0 < s ->
  dot v (plane_normal (d_c0 d) (d_c1 d) (d_c2 d)) < 0 -> in_plane (d_c0 d) (d_c1 d) (d_c2 d) (ray_at vzero v s) ->
  exists zd yd a D, get_intersection z d (nfin v) (nfin vzero) = (zd, yd, Fin a) /\ airy_dist z d (Fin a) = Fin D /\
    norm (ray_at vzero v s) <= D /\
    (D = norm (ray_at vzero v s) <-> forall p, in_plane (d_c0 d) (d_c1 d) (d_c2 d) p -> norm (d_c0 d) <= norm p).
Proof. exact pC72_distance_from_origin. Qed.
Print Assumptions C72_distance_from_origin.

(** When no disc reaches half a pixel, the image depends on the position, frame and strength of the
    spots alone: not on Scherrer widths, incidence angles, Bessel function, memory or order. *)
Theorem C72_narrow_discs : forall e e' d pd pd' frames ml mi ml' mi' im im' out out', fresh pd -> fresh pd' -> volumes_ok pd -> volumes_ok pd' ->
  built d -> 0 < d_pz d -> re_z e' = re_z e -> permutes (re_argsort e) -> permutes (re_argsort e') ->
  render e d pd frames "nano" ml mi = Ok (im, out) -> render e' d pd' frames "nano" ml' mi' = Ok (im', out') ->
  (forall r, In r (pd_peaks out) -> proper_disc out r /\ disc_radius d out r < 1/2) ->
  (forall r, In r (pd_peaks out') -> proper_disc out' r /\ disc_radius d out' r < 1/2) ->
  Forall2 (same_spot out out') (pd_peaks out) (pd_peaks out') -> same_image im im'.
Proof. exact pC72_narrow_discs. Qed.
Print Assumptions C72_narrow_discs.

(** On a detector whose normal points along the rays (incidence angles above 90 degrees, see C49) no
    Airy disc is ever drawn: Scherrer broadening has no effect on the image. *)
Theorem C72_turned_away_refuted : forall e e' d pd pd' frames ml mi ml' mi' im im' out out', fresh pd -> fresh pd' -> volumes_ok pd -> volumes_ok pd' ->
  built d -> 0 < d_pz d -> re_z e' = re_z e -> permutes (re_argsort e) -> permutes (re_argsort e') ->
  render e d pd frames "nano" ml mi = Ok (im, out) -> render e' d pd' frames "nano" ml' mi' = Ok (im', out') ->
  (forall r, In r (pd_peaks out) -> exists w a, has out r "scherrer_fwhm" w /\ 0 <= w /\ has out r "incident_angle" a /\ 90 < a <= 180) ->
  (forall r, In r (pd_peaks out') -> exists w a, has out' r "scherrer_fwhm" w /\ 0 <= w /\ has out' r "incident_angle" a /\ 90 < a <= 180) ->
  Forall2 (same_spot out out') (pd_peaks out) (pd_peaks out') -> same_image im im'.
Proof. exact pC72_turned_away_refuted. Qed.
Print Assumptions C72_turned_away_refuted.

(** ** Examples *)
Example C72_shape_nonvacuous : exists (j1 : R -> R) d psf pd r, 0 < d_pz d /\ List.length r = 30%nat /\ pd_columns pd = column_names ++ new_columns /\
  proper_disc pd r /\
  let x := 11861/10000 * read pd r "scherrer_fwhm" * norm (d_c0 d) / cos (read pd r "incident_angle" * PI / 180) / d_pz d in
  x = 3 /\ 1/2 <= x < 10^8 /\ d_sigma d <= x /\ (exists n, 4 * x = IZR n) /\ psf_kernel d = Ok psf /\ j1 1 = 1.
Proof. exact xC72_shape. Qed.

(** An oblique ray: corner 0 at distance 10, flight path 10 * sqrt 2. *)
Example C72_ray_nonvacuous : exists d v o s, built d /\ 0 < s /\ dot v (plane_normal (d_c0 d) (d_c1 d) (d_c2 d)) < 0 /\
  in_plane (d_c0 d) (d_c1 d) (d_c2 d) (ray_at o v s) /\ norm (d_c0 d) = 10 /\ normsq (vsub (ray_at o v s) o) = 200.
Proof. exact xC72_ray. Qed.

(** Two discs of different width, different Bessel functions and memory. *)
Example C72_narrow_nonvacuous : exists e e' d pd pd' im im' out out', fresh pd /\ fresh pd' /\ volumes_ok pd /\ volumes_ok pd' /\ built d /\ 0 < d_pz d /\
  re_z e' = re_z e /\ permutes (re_argsort e) /\ permutes (re_argsort e') /\
  render e d pd 2 "nano" None 1 = Ok (im, out) /\ render e' d pd' 2 "nano" None 1 = Ok (im', out') /\
  (forall r, In r (pd_peaks out) -> proper_disc out r /\ disc_radius d out r = 1/4) /\
  (forall r, In r (pd_peaks out') -> proper_disc out' r /\ disc_radius d out' r = 1/3) /\
  Forall2 (same_spot out out') (pd_peaks out) (pd_peaks out') /\ pd_peaks out <> [] /\ re_j1 e 1 <> re_j1 e' 1 /\ re_free_nano e <> re_free_nano e'.
Proof. exact xC72_narrow. Qed.

Example C72_turned_away_nonvacuous : forall w, 0 <= w -> exists e d pd im out, fresh pd /\ volumes_ok pd /\ built d /\ 0 < d_pz d /\ permutes (re_argsort e) /\
  render e d pd 2 "nano" None 1 = Ok (im, out) /\ pd_peaks out <> [] /\
  (forall r, In r (pd_peaks out) -> has out r "scherrer_fwhm" w /\ has out r "incident_angle" 180).
Proof. exact xC72_turned_away. Qed.

