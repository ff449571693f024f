(** Specification: a collection whose completions get other doc ids (scores) in the same order (C72). *)
From Verif Require Import Base S_Order S_Vocab S_Parse M_Auto S_Collection.
Local Open Scope nat_scope.

(** [c'] has the terms and the completions of [c]; the completion with doc id d has doc id [f d] there; and of two completions the one that is
    better in [c] is better in [c']. The numbers of doc ids may differ: there can be other gaps between them. *)
Record relabelled (f : nat -> nat) (c c' : collection) : Prop := {
  rl_terms : terms c' = terms c;
  rl_comps : comps c' = comps c;
  rl_docs : docs c' = map f (docs c);
  rl_order : forall d e, In d (docs c) -> In e (docs c) -> d < e -> f d < f e
}.

(** The same answer with the other doc ids. *)
Definition relabel (f : nat -> nat) (out : list (nat * list N)) : list (nat * list N) := map (fun p => (f (fst p), snd p)) out.

(** What two runs have in common: each gives the results of the other, up to the doc ids; and the one goes wrong where the other does. *)
Definition same_answers {S : Type} (f : nat -> nat) (results : S -> res (list (nat * list N))) (r r' : res S) : Prop :=
  (forall s out, r = Ok s -> results s = Ok out -> exists s', r' = Ok s' /\ results s' = Ok (relabel f out)) /\
  (forall s' out', r' = Ok s' -> results s' = Ok out' -> exists s out, r = Ok s /\ results s = Ok out /\ out' = relabel f out) /\
  (r = UB <-> r' = UB).
