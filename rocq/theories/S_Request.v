(** Requests of the page (C80). *)
From Verif Require Import Base S_Json.
Local Open Scope nat_scope.

(** The variable k of a request asks for [k] suggestions; without it, or if it has more than 15 characters, 10. *)
Definition asks_for (kvar : option (list N)) (k : nat) : Prop :=
  match kvar with
  | Some t => length t <= 15 /\ decimal t k \/ 15 < length t /\ k = 10
  | None => k = 10
  end.
(** No suggestion has a percent sign (F29). *)
Definition no_percent (out : list (nat * list N)) : Prop := Forall (fun r => ~ In 37%N (snd r)) out.
