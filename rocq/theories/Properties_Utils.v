(** Generated by tools/gen_properties.py from PUtils.v: the property theorems,
    verbatim, each closed by [exact]. Contains nothing else. *)
From Verif Require Import Vec MDetector MUtils SUtils PDetector PRender PKernel2 PKernel3.
From Coq Require Import String.
From Verif Require Import PUtils.
Open Scope R_scope.

(** Entry k of the result belongs to the ring centre k * binsize and holds the sum of the
    pixels whose ring is k; at most all rings but the last are returned. *)
Theorem C66_entries : forall im cz cy binsize bins h, diffractogram im cz cy binsize = Ok (bins, h) ->
  let count := ring_count (im_m im) (im_n im) binsize in
  0 < binsize /\ List.length bins = List.length h /\ (List.length h <= count - 1)%nat /\
  forall k, (k < List.length h)%nat -> nth k bins 0 = INR k * binsize /\ nth k h 0 = ring_total im cz cy binsize k.
Proof. exact pC66_entries. Qed.
Print Assumptions C66_entries.

(** The returned histogram holds the whole image except the last ring. *)
Theorem C66_total : forall im cz cy binsize bins h, diffractogram im cz cy binsize = Ok (bins, h) ->
  sum_list h = image_total im - ring_total im cz cy binsize (ring_count (im_m im) (im_n im) binsize - 1).
Proof. exact pC66_total. Qed.
Print Assumptions C66_total.

(** Integration is linear up to the dropped ring, and total intensity is lost: a 4 x 4 image
    with all its intensity in the corner opposite to the centre gives an empty diffractogram. *)
Theorem C66_conserved_refuted : exists im cz cy binsize bins h, diffractogram im cz cy binsize = Ok (bins, h) /\
  image_total im = 1 /\ sum_list h = 0.
Proof. exact pC66_conserved_refuted. Qed.
Print Assumptions C66_conserved_refuted.

(** When nothing falls in the last ring the total is conserved; e.g. the same image seen from
    its centre. *)
Example C66_conserved_nonvacuous : exists im cz cy binsize bins h, diffractogram im cz cy binsize = Ok (bins, h) /\ image_total im = 1 /\ sum_list h = 1.
Proof. exact xC66_conserved. Qed.

(** Membership is true exactly when some interval contains the value, bounds included. *)
Theorem C68_closed : forall x intervals, contained_by_intervals (Fin x) (map (fun ab => (Fin (fst ab), Fin (snd ab))) intervals) = true <->
  exists a b, In (a, b) intervals /\ a <= x <= b.
Proof. exact pC68_closed. Qed.
Print Assumptions C68_closed.

Theorem C68_nan : forall intervals, contained_by_intervals NaN intervals = false.
Proof. exact pC68_nan. Qed.
Print Assumptions C68_nan.

(** The order of the intervals does not matter. *)
Theorem C68_order : forall x l m, contained_by_intervals x (l ++ m) = (contained_by_intervals x l || contained_by_intervals x m)%bool.
Proof. exact pC68_order. Qed.
Print Assumptions C68_order.

Example C68_both_sides_nonvacuous : contained_by_intervals (Fin 1) [(Fin 0, Fin (1/2)); (Fin 1, Fin 2)] = true /\ contained_by_intervals (Fin 3) [(Fin 0, Fin (1/2)); (Fin 1, Fin 2)] = false.
Proof. exact xC68_both_sides. Qed.

(** Loggers of other packages are never touched. *)
Theorem C67_other_loggers : forall c st, same_others (final c st) st.
Proof. exact pC67_other_loggers. Qed.
Print Assumptions C67_other_loggers.

(** Code that runs directly inside a verbose block is reported: the first message of every
    xfab module is printed, whatever the state before. *)
Theorem C67_active_inside : forall st body next logger, In logger xfab_loggers ->
  exists rest, messages (With true (Log logger body) next) st = (logger, true) :: rest.
Proof. exact pC67_active_inside. Qed.
Print Assumptions C67_active_inside.

(** After a verbose block all xfab loggers are off, even when the body raised, and an
    exception is passed on. *)
Theorem C67_off_afterwards : forall st body, xfab_disabled (final (With true body Done) st) /\
  raises (With true body Done) st = raises body (enter true st).
Proof. exact pC67_off_afterwards. Qed.
Print Assumptions C67_off_afterwards.

(** A block that is not verbose changes nothing. *)
Theorem C67_not_verbose : forall st body next, raises body st = false ->
  messages (With false body next) st = messages body st ++ messages next (final body st) /\
  final (With false body next) st = final next (final body st).
Proof. exact pC67_not_verbose. Qed.
Print Assumptions C67_not_verbose.

(** A nested verbose block silences the rest of the enclosing verbose block. *)
Theorem C67_nested_silences : forall st body logger, In logger xfab_loggers -> raises body (enter true (enter true st)) = false ->
  messages (With true (With true body (Log logger Done)) Done) st = messages body (enter true (enter true st)) ++ [(logger, false)].
Proof. exact pC67_nested_silences. Qed.
Print Assumptions C67_nested_silences.

(** By default nothing is printed: without a verbose block no xfab message is ever printed. *)
Theorem C67_default_silent : forall st c logger, verbose_free c = true -> In logger xfab_loggers -> ~ In (logger, true) (messages c (after_import st)).
Proof. exact pC67_default_silent. Qed.
Print Assumptions C67_default_silent.

Example C67_nested_nonvacuous : In "xfab.tools"%string xfab_loggers /\ raises (Log "xfab.tools" Done) (fun _ => false) = false /\ verbose_free (With false (Log "xfab.tools" Done) Raise) = true.
Proof. exact xC67_nested. Qed.

(** Whatever linear solver is used, as long as its answers solve the system: the returned
    point is at the same distance from all the points and lies in their affine span. *)
Theorem C75_equidistant : forall solve p0 ps c, (forall A b x, solve A b = Ok x -> solves A b x) ->
  circum_centroid solve p0 ps = Ok c -> in_span p0 ps c /\ forall p, In p ps -> dist c p = dist c p0.
Proof. exact pC75_equidistant. Qed.
Print Assumptions C75_equidistant.

(** It is the only such point, so the choice of solver does not matter. *)
Theorem C75_unique : forall solve p0 ps c c', (forall A b x, solve A b = Ok x -> solves A b x) ->
  circum_centroid solve p0 ps = Ok c -> in_span p0 ps c' -> (forall p, In p ps -> dist c' p = dist c' p0) -> c' = c.
Proof. exact pC75_unique. Qed.
Print Assumptions C75_unique.

(** Points in general position: four corners of a cube; the centre is (1/2,1/2,1/2). *)
Example C75_cube_nonvacuous : exists solve, (forall A b x, solve A b = Ok x -> solves A b x) /\
  circum_centroid solve (V3 0 0 0) [V3 1 0 0; V3 0 1 0; V3 0 0 1] = Ok (V3 (1/2) (1/2) (1/2)).
Proof. exact xC75_cube. Qed.

