(** Generated by tools/gen_properties.py from PKernel.v: the property theorems,
    verbatim, each closed by [exact]. Contains nothing else. *)
From Verif Require Import Vec Spec MMotion MLaue MMesh MScattering MStrain MBeam MPolycrystal SPolycrystal MDetector SDetector.
From Verif Require Import MRender SRender PLaue PScattering PBeam PDetector PDetector2 PDetector3 PDetector4 PRender PRender2 PRenderEx PRender3.
From Coq Require Import Permutation.
From Verif Require Import PKernel.
Open Scope R_scope.

(** For every memory estimate and every available memory the loop ends within as many
    iterations as there are peaks; the batches are non-empty and their concatenation
    is the list of peaks, so every peak is processed exactly once and in order. *)
Theorem C41_terminates : forall (A : Type) (mem : A -> num) avail (l : list A),
  exists bs, airy_batches mem avail l (List.length l) = Some bs /\ List.concat bs = l /\
    Forall (fun b => b <> []) bs /\ (List.length bs <= List.length l)%nat.
Proof. exact pC41_terminates. Qed.
Print Assumptions C41_terminates.

(** A batch of more than one peak fits in the available memory. *)
Theorem C41_batches_fit : forall z d avail rows bs b,
  airy_batches (airy_memory z d) avail rows (List.length rows) = Some bs -> In b bs -> (1 < List.length b)%nat ->
  nle (nsum (map (airy_memory z d) b)) (Fin avail) = true.
Proof. exact pC41_batches_fit. Qed.
Print Assumptions C41_batches_fit.

(** Without memory every peak is its own batch. *)
Theorem C41_no_memory : forall z d rows,
  airy_batches (airy_memory z d) 0 rows (List.length rows) = Some (map (fun r => [r]) rows).
Proof. exact pC41_no_memory. Qed.
Print Assumptions C41_no_memory.

(** Five peaks with memory 6, 3, 2, 20, 1 and 10 available. *)
Example C41_batches_nonvacuous : airy_batches Fin 10 [6; 3; 2; 20; 1] 5 = Some [[6; 3]; [2]; [20]; [1]].
Proof. exact xC41_batches. Qed.

