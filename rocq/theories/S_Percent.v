(** Percent signs (C86). *)
From Coq Require Import String.
From Verif Require Import Base S_Order S_Vocab S_Parse M_Auto S_Collection S_Found S_Json S_Session.

(** Two percent signs become one; there are no single ones. *)
Inductive halved : list N -> list N -> Prop :=
| halved_nil : halved [] []
| halved_other b s t : b <> 37%N -> halved s t -> halved (b :: s) (b :: t)
| halved_percent s t : halved s t -> halved (37%N :: 37%N :: s) (37%N :: t).

(** An answer that can be sent: it can be reported, and there are no single percent signs in its texts. *)
Definition sendable (c : collection) (out : list (nat * list N)) : Prop := reportable c out /\ exists texts, Forall2 halved (map snd out) texts.
(** The response [data]: as [responds], with what arrives of the texts. *)
Definition arrives (c : collection) (r : option (list N) * option (list N)) (data : list N) : Prop :=
  exists out texts, web_answer c r out /\ Forall2 halved (map snd out) texts /\
    (out <> [] -> exists v, is_json data v /\ suggestions texts v) /\
    (out = [] -> data = bytes "{""suggestions"":[""value"":"""",""data"":""""]}" ++ [10%N])%list.
