(** Specification: the usual layout of the input of the preprocessing scripts. *)
From Verif Require Import Base S_Python S_Order S_Text S_Collection S_Prep.
Local Open Scope nat_scope.

(** The id, a space, the words with single spaces between them, a newline. *)
Definition usual_input {py : python} (es : entries) (input : list N) : Prop :=
  exists ids, Forall2 numeral ids (map (fun e => N.of_nat (fst e)) es) /\
    input = flat_map (fun p => fst p ++ 32%N :: join (snd (snd p)) ++ [10%N]) (combine ids es).
(** The first completion is a single word, of one byte, and no other word comes before it (see F1, F2). *)
Definition starts_short {py : python} (es : entries) : Prop :=
  exists d w es', es = (d, [w]) :: es' /\ length (encoded w) = 1 /\ forall v, occurs es v -> v = w \/ lex_lt w v.
