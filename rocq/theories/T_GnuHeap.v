(** C40 with the heap algorithms of GNU libstdc++, and why the contract asks for more than the standard promises (F24). *)
From Coq Require Import Permutation.
From Verif Require Import Base M_Heap S_Heap P_Heap M_GnuHeap P_GnuHeap.
Local Open Scope nat_scope.

(** libstdc++ meets the contract of the theorems, also when the root has been changed before pop_heap, *)
Theorem C40_gnu_heap : forall A, std_heap (gnu_heap A).
Proof. exact gnu_heap_ok. Qed.

(** within the bounds of the vector. *)
Theorem C40_gnu_defined : forall (A : Type) (key : A -> nat),
  (forall q x, is_heap key q -> exists q', gnu_push_heap key (q ++ [x]) = Ok q') /\
  (forall x q, heap_below_root key (x :: q) -> exists q', gnu_pop_heap key (x :: q) = Ok (q' ++ [x])) /\
  (forall q, exists q', gnu_make_heap key q = Ok q').
Proof.
  intros A key. split; [|split].
  - intros q x H. destruct (gnu_push_ok key q x H) as (q' & E & _). eauto.
  - intros x q H. destruct (gnu_pop_ok key x q H) as (q' & E & _). eauto.
  - intros q. destruct (gnu_make_ok key q) as (q' & E & _). eauto.
Qed.

Theorem C40_gnu_history : forall (A : Type) (key : A -> nat) (os : list (heap_op A)), ops_valid 0 os ->
  exists q, run_ops key (gnu_heap A) [] os = Ok q /\ ops_effect key os [] q /\
    (q = [] \/ exists x, heap_top q = Ok x /\ is_min key x q).
Proof. exact (fun A key os => heap_history key (gnu_heap A) (gnu_heap_ok A) os). Qed.

(** What [alg.heap.operations] promises: pop_heap is only described for heaps. *)
Definition iso_heap {A} (std : heap_ops A) : Prop :=
  forall key : A -> nat,
  (forall q x, is_heap key q ->
     is_heap key (push_heap std key (q ++ [x])) /\ Permutation (push_heap std key (q ++ [x])) (q ++ [x])) /\
  (forall x q, is_heap key (x :: q) ->
     exists q', pop_heap std key (x :: q) = q' ++ [x] /\ is_heap key q' /\ Permutation q' q) /\
  (forall q, is_heap key (make_heap std key q) /\ Permutation (make_heap std key q) q).

(** F24: pop_heap after the root has grown, as in autocomplete_common.hpp:64-66, can lose elements with an implementation
    that keeps only these promises: this one checks that the root is a minimum first. *)
Definition suspicious_heap (A : Type) : heap_ops A := {|
  push_heap := push_heap (gnu_heap A);
  pop_heap := fun key q => match q with x :: q' => if forallb (fun y => key x <=? key y) q' then pop_heap (gnu_heap A) key q else [] | [] => [] end;
  make_heap := make_heap (gnu_heap A);
|}.
Theorem C40_iso_contract_refuted :
  (forall A, iso_heap (suspicious_heap A)) /\
  (let os := [OBuild [1; 2; 3]; OReplacePop 9] in
   ops_valid 0 os /\ run_ops (fun x => x) (suspicious_heap nat) [] os = Ok [] /\ ~ ops_effect (fun x => x) os [] []).
Proof.
  split.
  - intros A key. destruct (gnu_heap_ok A key) as (H1 & H2 & H3). split; [exact H1|]. split; [|exact H3].
    intros x q H. cbn [suspicious_heap pop_heap]. replace (forallb (fun y => key x <=? key y) q) with true.
    + apply H2. now apply heap_below.
    + symmetry. apply forallb_forall. intros y Hy. apply Nat.leb_le. apply (is_heap_top key x q H). now right.
  - cbv zeta. split; [cbn; lia|]. split; [reflexivity|]. intros H. inversion H as [|o os m m1 m2 E1 H1]; subst. inversion H1 as [|o os m m3 m4 E2 H2]; subst.
    inversion H2 as [m m' P|]; subst. cbn in E1, E2. destruct E2 as (t & _ & E2).
    apply Permutation_length in E1, E2, P. cbn in *. lia.
Qed.

Definition all_gnu := (C40_gnu_heap, C40_gnu_defined, C40_gnu_history, C40_iso_contract_refuted).
Print Assumptions all_gnu.

Example C40_gnu_nonvacuous :
  gnu_make_heap (fun x => x) [5; 3; 8; 1; 9; 2] = Ok [1; 3; 2; 5; 9; 8] /\
  gnu_pop_heap (fun x => x) [1; 3; 2; 5; 9; 8] = Ok [2; 3; 8; 5; 9; 1] /\
  gnu_pop_heap (fun x => x) [7; 3; 2; 5; 9; 8] = Ok [2; 3; 8; 5; 9; 7] /\
  gnu_push_heap (fun x => x) [2; 3; 8; 5; 9; 1] = Ok [1; 3; 2; 5; 9; 8] /\
  run_ops (fun x => x) (gnu_heap nat) [] [OBuild [5; 3; 8; 1]; OReplace 7; OPush 2; OPop; OReplacePop 9] = Ok [5; 7; 8].
Proof. repeat split. Qed.
