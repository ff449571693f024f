(** Sequences of parentheses: true is an opening one, false a closing one. *)
From Verif Require Import Base.
Local Open Scope nat_scope.

(** Balanced sequences. *)
Inductive balanced : list bool -> Prop :=
| balanced_nil : balanced []
| balanced_cons x y : balanced x -> balanced y -> balanced (true :: x ++ false :: y).

(** The opening parenthesis at position p is matched by the closing one at position q: what is between them is balanced. *)
Definition matching (l : list bool) (p q : nat) : Prop :=
  exists a m b, l = a ++ true :: m ++ false :: b /\ balanced m /\ length a = p /\ length a + 1 + length m = q.

(** The opening parenthesis at position p begins the innermost pair around position pos. *)
Definition encloses (l : list bool) (p pos : nat) : Prop :=
  exists q, matching l p q /\ p < pos < q /\ forall p' q', matching l p' q' -> p' < pos < q' -> p' <= p.
