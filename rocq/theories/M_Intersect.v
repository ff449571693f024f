(** Model of inverted_index::intersection_iterator_type, include/inverted_index.hpp:133-187. No proofs. *)
From Verif Require Import Base M_Iter.

(** What the searches need of an iterator over doc ids (autocomplete.hpp:175-198, autocomplete_common.hpp:41-70: the uses of an iterator). *)
Record stream_ops (St : Type) := {
  s_has_next : St -> bool;
  s_deref : St -> nat;
  s_next : St -> res St;
}.
Arguments s_has_next {St} _ _.
Arguments s_deref {St} _ _.
Arguments s_next {St} _ _.

(** A posting-list iterator as such (inverted_index.hpp:98-105). *)
Definition iter_stream {It} (ops : iter_ops It) : stream_ops It :=
  {| s_has_next := i_has_next ops; s_deref := i_deref ops; s_next := i_next ops |}.

Section Intersection.
  Context {It : Type}.
  Variable ops : iter_ops It.
  Variable num_docs : nat.

  (** Members m_candidate, m_i, m_iterators (inverted_index.hpp:170-173). *)
  Record inter := { x_cand : nat; x_i : nat; x_its : list It }.

  (** inverted_index.hpp:175-186 next(): one iteration; state (val, iterator). *)
  Definition inter_step (s : nat * inter) : res ((nat * inter) + inter) :=
    let '(val, x) := s in
    if (val <? num_docs) && negb (x_i x =? length (x_its x)) then
      do it <- get (x_its x) (x_i x);
      do it <- i_next_geq ops it (x_cand x);
      let val := i_deref ops it in
      let its := upd (x_its x) (x_i x) it in
      if negb (val =? x_cand x)
      then Ok (inl (val, {| x_cand := val; x_i := 0; x_its := its |}))
      else Ok (inl (val, {| x_cand := x_cand x; x_i := x_i x + 1; x_its := its |}))
    else Ok (inr x).
  (** As above: inverted_index.hpp:175-186. *)
  Definition inter_next (fuel : nat) (x : inter) : res inter := loop fuel inter_step (0, x).

  (** inverted_index.hpp:162-167 operator++. *)
  Definition inter_incr (fuel : nat) (x : inter) : res inter :=
    do it <- get (x_its x) 0;
    do it <- i_next ops it;
    inter_next fuel {| x_cand := i_deref ops it; x_i := 1; x_its := upd (x_its x) 0 it |}.

  (** inverted_index.hpp:154-160 has_next, operator*. *)
  Definition inter_stream (fuel : nat) : stream_ops inter :=
    {| s_has_next := fun x => x_cand x <? num_docs; s_deref := x_cand; s_next := inter_incr fuel |}.

  Variable iterator : nat -> res It.
  (** std::sort by size, inverted_index.hpp:143-146. *)
  Variable sort_by_size : list It -> list It.

  (** inverted_index.hpp:138-141; ids are 1-based. *)
  Fixpoint open_terms (ids : list nat) : res (list It) :=
    match ids with
    | [] => Ok []
    | id :: ids' =>
        match id with
        | O => UB
        | S t => do it <- iterator t; do rest <- open_terms ids'; Ok (it :: rest)
        end
    end.

  (** inverted_index.hpp:134-152, the constructor. *)
  Definition intersection (fuel : nat) (ids : list nat) : res inter :=
    do its <- open_terms ids;
    let its := sort_by_size its in
    do it <- get its 0;
    do it <- i_access0 ops it;
    inter_next fuel {| x_cand := i_deref ops it; x_i := 1; x_its := upd its 0 it |}.
End Intersection.
Arguments inter : clear implicits.
