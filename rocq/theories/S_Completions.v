(** Specification: well-formed lists of completions and what their dictionaries answer. *)
From Verif Require Import Base S_Order S_Vocab.

(** A completion as a sequence of token ids, without the terminating 0: ids are at
    least 1, below 2^32 - 1 (the reserved invalid id), and there are between 1 and
    63 of them (MAX_NUM_TERMS_PER_QUERY includes the terminator). *)
Definition wf_completion (c : list N) : Prop :=
  Forall (fun x => 0 < x < 4294967295)%N c /\ 0 < length c <= 63.

(** The completions of a data set in file order: strictly sorted, so without duplicates. *)
Definition wf_completions (cs : list (list N)) : Prop :=
  lex_sorted cs /\ cs <> [] /\ Forall wf_completion cs.

(** What the .mapped file holds: every completion followed by the terminator 0. *)
Definition terminated (c : list N) : list N := c ++ [0%N].

(** [c] consists of [prefix], then one token between [a] and [b] (inclusive), then anything. *)
Definition continues (prefix : list N) (a b : N) (c : list N) : Prop :=
  exists x rest, c = prefix ++ x :: rest /\ (a <= x <= b)%N.

(** [a, b) is a non-empty range holding exactly the indices below [n] that satisfy [P]. *)
Definition exact_range_excl (n : nat) (P : nat -> Prop) (a b : nat) : Prop :=
  a < b <= n /\ forall i, i < n -> (a <= i < b <-> P i).

(** What the integer dictionary takes for a continuation: the first completion ([first]) is found only if it is [prefix]
    followed by [a] (F2). *)
Definition continues_found (first prefix : list N) (a b : N) (c : list N) : Prop :=
  continues prefix a b c /\ (c = first -> c = prefix ++ [a]).

(** [c] is not among the sorted completions [cs]: it would be inserted as number [i]. *)
Definition falls_at (cs : list (list N)) (c : list N) (i : nat) : Prop :=
  i <= length cs /\ (forall j, j < i -> lex_lt (nth j cs []) c) /\ (forall j, i <= j < length cs -> lex_lt c (nth j cs [])).
