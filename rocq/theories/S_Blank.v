(** Specification: the query of an empty search box (C73). *)
From Verif Require Import Base S_Order S_Vocab S_Parse M_Auto S_Collection S_Found.
Local Open Scope nat_scope.

(** A query without any token: nothing but spaces. *)
Definition blank (r : request) : Prop := Forall (eq 32%N) (rq_text r).

(** The completions with the best (smallest) doc ids: all of them, or the k best. *)
Definition best (c : collection) (k : nat) (out : list (nat * list N)) : Prop := topk_answer c (fun _ => True) (limit c k) out.
(** The same without the first completion of the collection. *)
Definition best_but_first (c : collection) (k : nat) (out : list (nat * list N)) : Prop :=
  topk_answer c (fun ws => ws <> words_of c (nth 0 (comps c) [])) (limit c k) out.

(** What the indexes of type 2, 3 and 4 list: prefix search leaves out the first completion, unless it is the first term alone (F2). *)
Definition listed (c : collection) (r : request) (out : list (nat * list N)) : Prop :=
  if rq_conj r then best c (rq_k r) out
  else (nth 0 (comps c) [] = [1%N] -> best c (rq_k r) out) /\ (nth 0 (comps c) [] <> [1%N] -> best_but_first c (rq_k r) out).

(** The request is answered with [out] if that can be reported; and otherwise goes wrong. *)
Definition served_with {S : Type} (results : S -> res (list (nat * list N))) (ok : list (nat * list N) -> Prop) (out : list (nat * list N)) (r : res S) : Prop :=
  (ok out -> exists s, r = Ok s /\ results s = Ok out) /\ (~ ok out -> r = UB).
