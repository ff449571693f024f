(** Model of the heap algorithms of GNU libstdc++ (bits/stl_heap.h, release 13), which min_heap.hpp calls. No proofs.
    The comparator is that of M_Heap: comp(l, r) = key l > key r. Ranges are prefixes of length [len] of the vector [q]. *)
From Verif Require Import Base M_Heap.
Local Open Scope nat_scope.

Section Gnu.
  Context {A : Type}.
  Variable key : A -> nat.

  (** stl_heap.h:135-150 __push_heap: moves parents down into the hole until [value] fits. *)
  Fixpoint gnu_sift_up (fuel : nat) (q : list A) (hole top : nat) (value : A) : res (list A) :=
    match fuel with
    | O => Fuel
    | S fuel =>
        if top <? hole then
          do p <- get q ((hole - 1) / 2);
          if key value <? key p then
            do q <- set q hole p;
            gnu_sift_up fuel q ((hole - 1) / 2) top value
          else set q hole value
        else set q hole value
    end.

  (** stl_heap.h:223-252 __adjust_heap, the loop: moves the smaller child up into the hole; __secondChild equals __holeIndex
      at each test of the condition. Returns the vector and the hole. *)
  Fixpoint gnu_sift_down (fuel : nat) (q : list A) (hole len : nat) : res (list A * nat) :=
    match fuel with
    | O => Fuel
    | S fuel =>
        if hole <? (len - 1) / 2 then
          let second := 2 * (hole + 1) in
          do b <- get q second;
          do a <- get q (second - 1);
          let second := if key a <? key b then second - 1 else second in
          do c <- get q second;
          do q <- set q hole c;
          gnu_sift_down fuel q second len
        else Ok (q, hole)
    end.

  (** stl_heap.h:223-252 __adjust_heap. *)
  Definition gnu_adjust (q : list A) (hole len : nat) (value : A) : res (list A) :=
    let top := hole in
    do (q, hole) <- gnu_sift_down (S len) q hole len;
    do (q, hole) <- (if Nat.even len && (hole =? (len - 2) / 2) then
                       let second := 2 * (hole + 1) in
                       do c <- get q (second - 1);
                       do q <- set q hole c;
                       Ok (q, second - 1)
                     else Ok (q, hole));
    gnu_sift_up (S len) q hole top value.

  (** stl_heap.h:193-215 push_heap: the new element is the last one. *)
  Definition gnu_push_heap (q : list A) : res (list A) :=
    do value <- get q (length q - 1);
    gnu_sift_up (length q) q (length q - 1) 0 value.

  (** stl_heap.h:315-339 and 254-270 pop_heap: the root moves to the end, the last element to where it fits. *)
  Definition gnu_pop_heap (q : list A) : res (list A) :=
    if 1 <? length q then
      let last := length q - 1 in
      do value <- get q last;
      do root <- get q 0;
      do q <- set q last root;
      gnu_adjust q 0 last value
    else Ok q.

  (** stl_heap.h:341-370 __make_heap: [parent] counts down to 0. *)
  Fixpoint gnu_make_from (q : list A) (parent len : nat) : res (list A) :=
    do value <- get q parent;
    do q <- gnu_adjust q parent len value;
    match parent with O => Ok q | S parent => gnu_make_from q parent len end.
  (** As above: stl_heap.h:341-370. *)
  Definition gnu_make_heap (q : list A) : res (list A) :=
    if length q <? 2 then Ok q else gnu_make_from q ((length q - 2) / 2) (length q).
End Gnu.

(** What the vector holds afterwards; the proofs show that the algorithms end with Ok on the inputs that matter (min_heap.hpp:40-62: m_q after the call). *)
Definition result {A} (q : list A) (r : res (list A)) : list A := match r with Ok q' => q' | _ => q end.
(** min_heap.hpp:40-62: the calls. *)
Definition gnu_heap (A : Type) : heap_ops A := {|
  push_heap := fun key q => result q (gnu_push_heap key q);
  pop_heap := fun key q => result q (gnu_pop_heap key q);
  make_heap := fun key q => result q (gnu_make_heap key q);
|}.
