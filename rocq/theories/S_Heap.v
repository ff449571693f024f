(** Specification of heaps. *)
From Coq Require Import Permutation.
From Verif Require Import Base M_Heap.

Section HeapSpec.
  Context {A : Type}.
  Variable key : A -> nat.

  (** Every element other than the root is at least its parent (at index (i-1)/2). *)
  Definition is_heap (q : list A) : Prop :=
    forall i x y, 0 < i -> nth_error q i = Some x -> nth_error q ((i - 1) / 2) = Some y ->
    key y <= key x.

  (** The same without the edges that start at the root. *)
  Definition heap_below_root (q : list A) : Prop :=
    forall i x y, 0 < (i - 1) / 2 -> nth_error q i = Some x -> nth_error q ((i - 1) / 2) = Some y ->
    key y <= key x.
End HeapSpec.

(** Contract of the standard algorithms, [alg.heap.operations]. The standard asks for a heap
    before pop_heap; the code calls it after having increased the key of the root. The contract
    used here asks for a heap below the root only; the comparisons made by the usual
    implementations never involve the element to be popped. *)
Definition std_heap {A} (std : heap_ops A) : Prop :=
  forall key : A -> nat,
  (forall q x, is_heap key q ->
     is_heap key (push_heap std key (q ++ [x])) /\ Permutation (push_heap std key (q ++ [x])) (q ++ [x])) /\
  (forall x q, heap_below_root key (x :: q) ->
     exists q', pop_heap std key (x :: q) = q' ++ [x] /\ is_heap key q' /\ Permutation q' q) /\
  (forall q, is_heap key (make_heap std key q) /\ Permutation (make_heap std key q) q).

(** [x] is a smallest element of [q]. *)
Definition is_min {A} (key : A -> nat) (x : A) (q : list A) : Prop :=
  In x q /\ forall y, In y q -> key x <= key y.

(** The effect of one operation on the multiset of elements. *)
Definition op_effect {A} (key : A -> nat) (o : heap_op A) (m m' : list A) : Prop :=
  match o with
  | OBuild l => Permutation m' l
  | OPush x => Permutation m' (x :: m)
  | OPop | OReplacePop _ => exists t, is_min key t m /\ Permutation m (t :: m')
  | OReplace x => exists t rest, is_min key t m /\ Permutation m (t :: rest) /\ Permutation m' (x :: rest)
  end.

Inductive ops_effect {A} (key : A -> nat) : list (heap_op A) -> list A -> list A -> Prop :=
| oe_nil : forall m m', Permutation m m' -> ops_effect key [] m m'
| oe_cons : forall o os m m1 m2, op_effect key o m m1 -> ops_effect key os m1 m2 ->
    ops_effect key (o :: os) m m2.

(** Pops and replacements are only asked of non-empty heaps ([n]: number of elements). *)
Fixpoint ops_valid {A} (n : nat) (os : list (heap_op A)) : Prop :=
  match os with
  | [] => True
  | OBuild l :: os' => ops_valid (length l) os'
  | OPush _ :: os' => ops_valid (S n) os'
  | OPop :: os' | OReplacePop _ :: os' => 0 < n /\ ops_valid (n - 1) os'
  | OReplace _ :: os' => 0 < n /\ ops_valid n os'
  end.
