(** Typing on (C89). *)
From Coq Require Import String.
From Verif Require Import Base S_Python S_Parse M_Auto S_Collection S_Json S_Session.
Local Open Scope nat_scope.

(** The request [r'] is [r] with more characters of the last word. *)
Definition types_on (r r' : option (list N) * option (list N)) : Prop :=
  snd r = snd r' /\ exists t x, fst r = Some t /\ fst r' = Some (t ++ x)%list /\ no_space x.
(** The response [data] lists [texts]. *)
Definition lists (data : list N) (texts : list (list N)) : Prop :=
  (texts <> [] -> exists v, is_json data v /\ suggestions texts v) /\
  (texts = [] -> data = bytes "{""suggestions"":[""value"":"""",""data"":""""]}" ++ [10%N])%list.
