(** * Model of the memory helpers of utils.py: 631-729 print_memory_report, 731-770 return_device_memory.
    No proofs in this file. *)
From Verif Require Import Num MCuda MVerbose.
From Coq Require Import String.
Open Scope list_scope.
Open Scope R_scope.

(** What the helpers ask the machine (external): the configured device, torch.cuda.is_available(),
    psutil.virtual_memory() as (total, available) bytes, torch.cuda.current_device(), and total, allocated and
    reserved bytes of a GPU; None: the query raises. *)
Record machine := Machine {
  m_devices : devices; m_cuda_available : bool; m_psutil : option (R * R);
  m_current : option nat; m_gpu : nat -> option (R * R * R) }.
Record report := Report { r_device : string; r_available : R; r_free : R }.
Definition gb : R := 1024^3.

(** utils.py:731-770 (torch is importable: detector.py imports it). *)
Definition return_device_memory (m : machine) : result report :=
  if negb (String.eqb (get_selected_device (m_devices m)) "cuda") then
    match m_psutil m with
    | Some (total, available) => Ok (Report "cpu" (total / gb) (available / gb))
    | None => Ok (Report "cpu" 0 0)
    end
  else
    match m_current m with
    | Some k =>
        match m_gpu m k with
        | Some (total, _, reserved) => Ok (Report ("cuda:" ++ str k)%string (total / gb) (total / gb - reserved / gb))
        | None => Ok (Report (if m_cuda_available m then "cuda:" ++ str k else "cuda:unknown")%string 0 0)
        end
    | None => if m_cuda_available m then Err RuntimeError else Ok (Report "cuda:unknown" 0 0)
    end.

(** gc.get_objects(): tensors, objects whose inspection raises, and others.  [t_kind] is device.type,
    [t_where] str(device). *)
Record tensor := Tensor { t_name : string; t_kind : string; t_where : string; t_dtype : string;
  t_shape : list nat; t_elements : nat; t_element_size : nat; t_grad : bool }.
Inductive object := ATensor (t : tensor) | Raises | Other.
(** utils.py:691 *)
Definition nbytes (t : tensor) : nat := (t_elements t * t_element_size t)%nat.
(** utils.py:681-705 *)
Definition collect (include_cpu include_cuda : bool) (objects : list object) : list tensor :=
  flat_map (fun o => match o with
    | ATensor t => if ((String.eqb (t_kind t) "cpu" && negb include_cpu) || (String.eqb (t_kind t) "cuda" && negb include_cuda))%bool
                   then [] else [t]
    | _ => [] end) objects.
(** utils.py:711: list.sort(reverse=True), which keeps the order of equal sizes. *)
Fixpoint place (t : tensor) (l : list tensor) : list tensor :=
  match l with
  | [] => [t]
  | x :: r => if Nat.leb (nbytes x) (nbytes t) then t :: l else x :: place t r
  end.
Definition sort_desc (l : list tensor) : list tensor := fold_right place [] l.
(** utils.py:712-713 *)
Definition top (limit : option Z) (l : list tensor) : list tensor :=
  match limit with
  | Some k => if (0 <? k)%Z then firstn (Z.to_nat k) l else l
  | None => l
  end.
(** "cpu" in entry["device"], utils.py:717-719 *)
Definition on_cpu (t : tensor) : bool := match String.index 0 "cpu" (t_where t) with Some _ => true | None => false end.
Inductive printed :=
| GpuStatus (device : nat) (total allocated reserved free utilization : R)
| CpuOnly
| NoTensors
| CpuTotal (gigabytes : R) (listed : nat)
| TopHeader
| Entry (number : nat) (t : tensor) (megabytes : R).
(** utils.py:631-729 *)
Definition print_memory_report (m : machine) (objects : list object) (device_index : nat) (include_cpu include_cuda : bool)
  (limit : option Z) : result (list printed * report) :=
  let* r := return_device_memory m in
  let* head :=
    if (String.eqb (get_selected_device (m_devices m)) "cuda" && include_cuda)%bool then
      match m_gpu m device_index with
      | None => Err RuntimeError
      | Some (total, allocated, reserved) =>
          let t := total / gb in let a := allocated / gb in let s := reserved / gb in
          Ok [GpuStatus device_index t a s (t - s) (if Req_EM_T t 0 then 0 else a / t * 100)]
      end
    else Ok [CpuOnly] in
  match collect include_cpu include_cuda objects with
  | [] => Ok (head ++ [NoTensors], r)
  | ts =>
      let listed := top limit (sort_desc ts) in
      let cpu := filter on_cpu listed in
      Ok (head ++
          (if include_cpu then [CpuTotal (sum_list (map (fun t => INR (nbytes t)) cpu) / gb) (List.length cpu)] else []) ++
          TopHeader ::
          map (fun kt => Entry (fst kt) (snd kt) (INR (nbytes (snd kt)) / 1024^2)) (combine (seq 1 (List.length listed)) listed), r)
  end.
