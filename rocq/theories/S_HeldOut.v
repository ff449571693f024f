(** Specification: answers without held-out completions. *)
From Verif Require Import Base S_Collection S_Index S_Python S_Prep S_Filter.
Local Open Scope nat_scope.

(** Every result is a completion of the collection with its text. *)
Definition from_collection (c : collection) (out : list (nat * list N)) : Prop :=
  forall d s, In (d, s) out -> exists ids, is_doc c d ids /\ s = text c ids.

(** No result is the text of a chosen completion; each is that of another completion of the input, with its id. *)
Definition held_out (es : entries) (chosen : list entries) (outs : list (list (nat * list N))) : Prop :=
  forall out d s, In out outs -> In (d, s) out ->
  (exists ws, In (d, ws) es /\ ~ In (d, ws) (concat chosen) /\ s = join ws) /\ forall e, In e (concat chosen) -> s <> join (snd e).
