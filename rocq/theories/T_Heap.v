(** C40: the min-heap keeps a minimum on top, after any history of operations. *)
From Coq Require Import Permutation.
From Verif Require Import Base M_Heap S_Heap P_Heap.
Local Open Scope nat_scope.

Theorem C40_heap_history : forall (A : Type) (key : A -> nat) (std : heap_ops A) (os : list (heap_op A)),
  std_heap std -> ops_valid 0 os ->
  exists q, run_ops key std [] os = Ok q /\ ops_effect key os [] q /\
    (q = [] \/ exists x, heap_top q = Ok x /\ is_min key x q).
Proof. exact (fun A key std os H => heap_history key std H os). Qed.
Print Assumptions C40_heap_history.

(** sink(0) repairs a heap whose root alone was changed. *)
Theorem C40_heapify : forall (A : Type) (key : A -> nat) (q : list A),
  heap_below_root key q ->
  exists q', heapify key q = Ok q' /\ is_heap key q' /\ Permutation q' q.
Proof. exact (fun A key q => heapify_ok key q). Qed.
Print Assumptions C40_heapify.

(** The contract of the standard algorithms has an implementation, and a history. *)
Example C40_nonvacuous :
  std_heap (sorting_heap nat) /\
  ops_valid 0 [OBuild [5; 3; 8; 1]; OReplace 7; OPush 2; OPop; OReplacePop 9] /\
  run_ops (fun x => x) (sorting_heap nat) [] [OBuild [5; 3; 8; 1]; OReplace 7; OPush 2; OPop; OReplacePop 9]
    = Ok [5; 7; 8].
Proof. split; [apply sorting_heap_ok|]. split; [cbn; repeat split; lia|reflexivity]. Qed.
