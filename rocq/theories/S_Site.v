(** The whole site: from the input text to the responses of the server (C85). *)
From Coq Require Import String.
From Verif Require Import Base S_Python S_Order S_Vocab S_Parse M_Auto S_Collection S_Json S_Request S_Session S_Prep.
Local Open Scope nat_scope.
Section Python.
Context {py : python}.

(** Completions of at most [L] bytes without percent signs. *)
Definition modest (L : nat) (es : entries) : Prop :=
  forall d ws, In (d, ws) es -> length (encoded (join ws)) <= L /\ ~ In 37%N (encoded (join ws)).
(** A request for [k] suggestions for the complete words [ts] and the begun word [last]; the text has at most 127 bytes (F61). *)
Definition wants (r : option (list N) * option (list N)) (k : nat) (ts : list (list N)) (last : list N) : Prop :=
  exists t, fst r = Some t /\ length t <= 127 /\ counts (snd r) k /\ 1 <= k /\ query_split t ts last.
(** The response [data] lists the best completions of the input. *)
Definition completed (es : entries) (r : option (list N) * option (list N)) (data : list N) : Prop :=
  exists k ts last out, wants r k ts last /\ best es (matches_all es ts last) k out /\
    (out <> [] -> exists v, is_json data v /\ suggestions (map snd out) v) /\
    (out = [] -> data = bytes "{""suggestions"":[""value"":"""",""data"":""""]}" ++ [10%N])%list.

(** [V] lists the distinct words in lexicographical order. *)
Definition dictionary (es : entries) (V : list (list N)) : Prop :=
  lex_sorted V /\ forall w, In w V <-> exists v, occurs es v /\ w = encoded v.
(** The inputs considered: no percent signs and at most [L] bytes in a completion, a number of words that is no multiple of 17 (F23), less than 4 GiB of words, some id is not 0,
    and some word is not in the completion with the id 0 (F11). *)
Record servable (L : nat) (es : entries) (V : list (list N)) : Prop := {
  sv_dictionary : dictionary es V;
  sv_modest : modest L es;
  sv_17 : length V mod 17 <> 0;
  sv_small : (N.of_nat (length (concat V) + 2 * length V) < 4294967296)%N;
  sv_positive : exists d ws, In (d, ws) es /\ 0 < d;
  sv_other : exists w, In w V /\ forall ws, In (0, ws) es -> ~ In w (map encoded ws)
}.
(** The begun word is not a proper beginning of the first word (F1). *)
Definition not_first (V : list (list N)) (last : list N) : Prop :=
  forall w W, V = w :: W -> is_prefix last w -> last <> [] -> w = last.
End Python.
