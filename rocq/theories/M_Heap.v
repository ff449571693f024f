(** Model of include/min_heap.hpp. No proofs.
    [key] is what the comparator looks at: comparator(l, r) = key l > key r
    (min_heap.hpp:8-13, util_types.hpp:66-68 and 107-114).
    std::push_heap, std::pop_heap and std::make_heap are parameters; their contract is
    S_Heap.std_heap. *)
From Verif Require Import Base.

(** The three standard algorithms, on the whole vector (min_heap.hpp:40-62: the calls). *)
Record heap_ops (A : Type) := {
  push_heap : (A -> nat) -> list A -> list A;
  pop_heap : (A -> nat) -> list A -> list A;
  make_heap : (A -> nat) -> list A -> list A;
}.
Arguments push_heap {A} _ _ _.
Arguments pop_heap {A} _ _ _.
Arguments make_heap {A} _ _ _.

Section Heap.
  Context {A : Type}.
  Variable key : A -> nat.
  Variable std : heap_ops A.

  (** min_heap.hpp:30-33 push. *)
  Definition heap_push (q : list A) (t : A) : list A := push_heap std key (q ++ [t]).

  (** min_heap.hpp:35-38 pop; undefined on an empty vector. *)
  Definition heap_pop (q : list A) : res (list A) :=
    match q with [] => UB | _ => Ok (removelast (pop_heap std key q)) end.

  (** min_heap.hpp:21-23 top. Writing through the reference is [upd q 0]. *)
  Definition heap_top (q : list A) : res A := get q 0.

  (** min_heap.hpp:68-77 sink: one iteration of the loop. *)
  Definition sink_step (s : list A * nat) : res ((list A * nat) + list A) :=
    let '(q, pos) := s in
    if 2 * pos + 1 <? length q then
      let i := 2 * pos + 1 in
      do a <- get q i;
      do i <- (if i + 1 <? length q then
                 do b <- get q (i + 1);
                 Ok (if key b <? key a then i + 1 else i)
               else Ok i);
      do x <- get q pos;
      do y <- get q i;
      if negb (key y <? key x) then Ok (inr q)
      else Ok (inl (upd (upd q pos y) i x, i))
    else Ok (inr q).

  (** min_heap.hpp:48-50 heapify. *)
  Definition heapify (q : list A) : res (list A) := loop (S (length q)) sink_step (q, 0).
End Heap.

(** The ways the clients use a heap: clear + push_back* + make_heap (autocomplete_common.hpp:46-51),
    push (minimal_docids.hpp:35), pop (unsorted_list.hpp), writing the top then heapify
    (autocomplete_common.hpp:64-66), writing the top then pop and heapify (same lines). *)
Inductive heap_op (A : Type) : Type :=
| OBuild (l : list A)
| OPush (x : A)
| OPop
| OReplace (x : A)
| OReplacePop (x : A).
Arguments OBuild {A} l.
Arguments OPush {A} x.
Arguments OPop {A}.
Arguments OReplace {A} x.
Arguments OReplacePop {A} x.

(** As above: autocomplete_common.hpp:46-51, minimal_docids.hpp:35, autocomplete_common.hpp:64-66. *)
Definition run_op {A} (key : A -> nat) (std : heap_ops A) (q : list A) (o : heap_op A) : res (list A) :=
  match o with
  | OBuild l => Ok (make_heap std key l)
  | OPush x => Ok (heap_push key std q x)
  | OPop => heap_pop key std q
  | OReplace x => do q <- set q 0 x; heapify key q
  | OReplacePop x => do q <- set q 0 x; do q <- heap_pop key std q; heapify key q
  end.

(** As above: autocomplete_common.hpp:46-51, minimal_docids.hpp:35, autocomplete_common.hpp:64-66. *)
Fixpoint run_ops {A} (key : A -> nat) (std : heap_ops A) (q : list A) (os : list (heap_op A)) : res (list A) :=
  match os with
  | [] => Ok q
  | o :: os' => do q <- run_op key std q o; run_ops key std q os'
  end.
