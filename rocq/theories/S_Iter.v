(** What a posting-list iterator has to do: be a cursor over a strictly increasing list. *)
From Coq Require Import Sorted.
From Verif Require Import Base M_Iter.

Definition increasing : list nat -> Prop := StronglySorted lt.

(** Index of the first element [>= lb] of [l] ([length l] if none). *)
Fixpoint first_geq (l : list nat) (lb : nat) : nat :=
  match l with
  | [] => 0
  | x :: l' => if lb <=? x then 0 else S (first_geq l' lb)
  end.

(** [at_ it l p]: [it] stands at position [p] of list [l] (p = length l: exhausted). Past the end the
    value under the iterator is the universe [u]. *)
Definition cursor {It} (ops : iter_ops It) (u : nat) (at_ : It -> list nat -> nat -> Prop) : Prop :=
  forall it l p, at_ it l p ->
    increasing l /\ Forall (fun x => x < u) l /\ p <= length l /\ l <> [] /\
    i_size ops it = length l /\
    i_has_next ops it = (p <? length l) /\
    i_deref ops it = nth p l u /\
    (p < length l -> exists it', i_next ops it = Ok it' /\ at_ it' l (p + 1)) /\
    (forall lb, lb <= u -> exists it', i_next_geq ops it lb = Ok it' /\ at_ it' l (first_geq l lb)) /\
    (exists it', i_access0 ops it = Ok it' /\ at_ it' l 0).

(** The same for an iterator whose next_geq only moves forward: a lower bound is asked for only when everything before the
    position of the iterator is below it. *)
Definition forward_cursor {It} (ops : iter_ops It) (u : nat) (at_ : It -> list nat -> nat -> Prop) : Prop :=
  forall it l p, at_ it l p ->
    increasing l /\ Forall (fun x => x < u) l /\ p <= length l /\ l <> [] /\
    i_size ops it = length l /\
    i_has_next ops it = (p <? length l) /\
    i_deref ops it = nth p l u /\
    (p < length l -> exists it', i_next ops it = Ok it' /\ at_ it' l (p + 1)) /\
    (forall lb, lb <= u -> p <= first_geq l lb -> exists it', i_next_geq ops it lb = Ok it' /\ at_ it' l (first_geq l lb)) /\
    (exists it', i_access0 ops it = Ok it' /\ at_ it' l 0).

(** Opening the posting list of term [t] (0-based) gives a cursor at its beginning. *)
Definition opens {It} (at_ : It -> list nat -> nat -> Prop) (iterator : nat -> res It)
  (postings : list (list nat)) : Prop :=
  forall t l, nth_error postings t = Some l -> exists it, iterator t = Ok it /\ at_ it l 0.
