(** Specification: two runs that cannot be told apart (C78). *)
From Verif Require Import Base.
Local Open Scope nat_scope.

(** The one run reports [out] exactly if the other does; and the one goes wrong exactly if the other does. *)
Definition same_runs {S T : Type} (results : S -> res (list (nat * list N))) (results' : T -> res (list (nat * list N))) (r : res S) (r' : res T) : Prop :=
  (forall out, (exists s, r = Ok s /\ results s = Ok out) <-> (exists t, r' = Ok t /\ results' t = Ok out)) /\
  (r = UB <-> r' = UB).

(** Building the index throws for both; or it succeeds for both and [Q] holds for the two indexes. *)
Definition both_built {I J : Type} (b : res I) (b' : res J) (Q : I -> J -> Prop) : Prop :=
  (b = Exn /\ b' = Exn) \/ (exists x x', b = Ok x /\ b' = Ok x' /\ Q x x').
