(** Generated by tools/gen_properties.py from PMemory.v: the property theorems,
    verbatim, each closed by [exact]. Contains nothing else. *)
From Verif Require Import Vec MMotion MLaue MBeam MPolycrystal MDetector MRender PRender PKernel MCuda MVerbose MMemory SMemory.
From Coq Require Import Permutation Sorting.Sorted.
From Verif Require Import PMemory.
Open Scope list_scope.

(** The report names the configured backend. *)
Theorem C86_device : forall m r, return_device_memory m = Ok r ->
  (selected (m_devices m) = "cuda"%string -> exists s, r_device r = ("cuda:" ++ s)%string) /\
  (selected (m_devices m) <> "cuda"%string -> r_device r = "cpu"%string).
Proof. exact pC86_device. Qed.
Print Assumptions C86_device.

(** Free memory lies between zero and the total. *)
Theorem C86_range : forall m r, sane m -> return_device_memory m = Ok r -> 0 <= r_free r <= r_available r.
Proof. exact pC86_range. Qed.
Print Assumptions C86_range.

(** The figures are gigabytes of 1024^3 bytes: the system's available memory, or the GPU's total minus what
    torch has reserved. *)
Theorem C86_figures : forall m r, return_device_memory m = Ok r ->
  (forall total available, selected (m_devices m) <> "cuda"%string -> m_psutil m = Some (total, available) ->
     r_available r * 1024^3 = total /\ r_free r * 1024^3 = available) /\
  (forall k total allocated reserved, selected (m_devices m) = "cuda"%string -> m_current m = Some k ->
     m_gpu m k = Some (total, allocated, reserved) ->
     r_available r * 1024^3 = total /\ r_free r * 1024^3 = total - reserved).
Proof. exact pC86_figures. Qed.
Print Assumptions C86_figures.

(** A failing query gives zeros, ... *)
Theorem C86_unknown : forall m,
  (selected (m_devices m) <> "cuda"%string /\ m_psutil m = None) \/
  (selected (m_devices m) = "cuda"%string /\ exists k, m_current m = Some k /\ m_gpu m k = None) \/
  (selected (m_devices m) = "cuda"%string /\ m_current m = None /\ m_cuda_available m = false) ->
  exists s, return_device_memory m = Ok (Report s 0 0).
Proof. exact pC86_unknown. Qed.
Print Assumptions C86_unknown.

(** ... except one that raises although CUDA is reported as available. *)
Theorem C86_raises_iff : forall m, (exists e, return_device_memory m = Err e) <->
  selected (m_devices m) = "cuda"%string /\ m_current m = None /\ m_cuda_available m = true.
Proof. exact pC86_raises_iff. Qed.
Print Assumptions C86_raises_iff.

(** A figure of zero never stops rendering: default batches for Gaussians, one peak at a time for Airy discs. *)
Theorem C86_zero_still_renders : forall m s z d rows, return_device_memory m = Ok (Report s 0 0) ->
  Z.of_nat (g_batch_size (r_free (Report s 0 0))) = 50000%Z /\
  airy_batches (airy_memory z d) (r_free (Report s 0 0) * 1024^3) rows (List.length rows) = Some (map (fun r => [r]) rows).
Proof. exact pC86_zero_still_renders. Qed.
Print Assumptions C86_zero_still_renders.

(** The listing: the largest tensors first, as many as the limit allows. *)
Theorem C86_listing : forall m objects device_index include_cpu include_cuda limit p r,
  print_memory_report m objects device_index include_cpu include_cuda limit = Ok (p, r) ->
  let all := tracked include_cpu include_cuda objects in
  return_device_memory m = Ok r /\
  largest (match limit with Some k => if (0 <? k)%Z then Z.to_nat k else List.length all | None => List.length all end) all (entries p).
Proof. exact pC86_listing. Qed.
Print Assumptions C86_listing.

(** The lines are numbered from 1 and show megabytes of 1024^2 bytes. *)
Theorem C86_entries : forall m objects device_index include_cpu include_cuda limit p r i k t mb,
  print_memory_report m objects device_index include_cpu include_cuda limit = Ok (p, r) ->
  nth_error (filter is_entry p) i = Some (Entry k t mb) ->
  k = S i /\ nth_error (entries p) i = Some t /\ mb * 1024^2 = INR (t_elements t * t_element_size t).
Proof. exact pC86_entries. Qed.
Print Assumptions C86_entries.

(** Without a limit the CPU line shows the memory of all CPU tensors, ... *)
Theorem C86_cpu_total : forall m objects device_index include_cuda limit p r,
  print_memory_report m objects device_index true include_cuda limit = Ok (p, r) ->
  (limit = None \/ exists k, limit = Some k /\ (k <= 0)%Z) ->
  tracked true include_cuda objects <> [] -> Forall named_by_kind (tensors_of objects) ->
  let cpu := filter (fun t => String.eqb (t_kind t) "cpu") (tensors_of objects) in
  forall x n, In (CpuTotal x n) p <-> x * 1024^3 = total_bytes cpu /\ n = List.length cpu.
Proof. exact pC86_cpu_total. Qed.
Print Assumptions C86_cpu_total.

(** ... with a limit at most that. *)
Theorem C86_cpu_total_bound : forall m objects device_index include_cuda limit p r x n,
  print_memory_report m objects device_index true include_cuda limit = Ok (p, r) ->
  Forall named_by_kind (tensors_of objects) -> In (CpuTotal x n) p ->
  0 <= x * 1024^3 <= total_bytes (filter (fun t => String.eqb (t_kind t) "cpu") (tensors_of objects)).
Proof. exact pC86_cpu_total_bound. Qed.
Print Assumptions C86_cpu_total_bound.

(** The line says "total" but with the default limit of five it counts only the five listed tensors. *)
Theorem C86_cpu_total_refuted : exists m objects p r x n, sane m /\ Forall named_by_kind (tensors_of objects) /\
  print_memory_report m objects 0 true true (Some 5%Z) = Ok (p, r) /\ In (CpuTotal x n) p /\
  x * 1024^3 < total_bytes (filter (fun t => String.eqb (t_kind t) "cpu") (tensors_of objects)).
Proof. exact pC86_cpu_total_refuted. Qed.
Print Assumptions C86_cpu_total_refuted.

(** The GPU block: exactly when the GPU is the configured device and not excluded. *)
Theorem C86_gpu_block : forall m objects device_index include_cpu include_cuda limit p r,
  print_memory_report m objects device_index include_cpu include_cuda limit = Ok (p, r) ->
  ((selected (m_devices m) = "cuda"%string /\ include_cuda = true) <-> exists total allocated reserved free use, In (GpuStatus device_index total allocated reserved free use) p) /\
  (forall k total allocated reserved free use, In (GpuStatus k total allocated reserved free use) p ->
     k = device_index /\ free = total - reserved /\ (total <> 0 -> use = 100 * allocated / total) /\
     m_gpu m k = Some (total * 1024^3, allocated * 1024^3, reserved * 1024^3)).
Proof. exact pC86_gpu_block. Qed.
Print Assumptions C86_gpu_block.

(** A machine with a listing of two of three tensors. *)
Example C86_listing_nonvacuous : exists p r, sane ex_machine /\
  print_memory_report ex_machine [ATensor (ex_tensor 3); Other; Raises; ATensor (ex_tensor 7); ATensor (ex_tensor 5)] 0 true true (Some 2%Z) = Ok (p, r) /\
  map nbytes (entries p) = [7; 5]%nat /\ r_available r = 8 /\ r_free r = 4.
Proof. exact xC86_listing. Qed.

