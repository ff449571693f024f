(** Sessions with the server (C83). *)
From Coq Require Import String.
From Verif Require Import Base S_Order S_Vocab S_Parse M_Auto S_Collection S_Found S_Json S_Request.
Local Open Scope nat_scope.

(** What the server searches for: the text of a request if it has at most 127 bytes, and otherwise (F61), or without a text, nothing. *)
Definition heard (q : option (list N)) (t : list N) : Prop :=
  match q with
  | Some u => length u <= 127 /\ t = u \/ 127 < length u /\ t = []
  | None => t = []
  end.
(** [t] begins with a number as strtoull reads it: white space, a sign, digits; what follows is not a digit. *)
Definition begins_with_number (t : list N) (neg : bool) (v : N) : Prop :=
  exists w sign ds rest, t = (w ++ sign ++ ds ++ rest)%list /\ Forall (fun b => b = 32 \/ 9 <= b <= 13)%N w /\
    (neg = false /\ (sign = [] \/ sign = [43%N]) \/ neg = true /\ sign = [45%N]) /\ digits ds /\
    (forall b r, rest = b :: r -> ~ is_digit b) /\ v = fold_left (fun v b => 10 * v + (b - 48))%N ds 0%N.
(** The number [k] which the server takes from the variable k: 10 without it, if it is empty or if it has more than 15 characters; otherwise
    the number it begins with, reduced to 32 bits. *)
Definition counts (kvar : option (list N)) (k : nat) : Prop :=
  match kvar with
  | Some t =>
      (t = [] \/ 15 < length t) /\ k = 10 \/
      t <> [] /\ length t <= 15 /\ exists neg v, begins_with_number t neg v /\
        Z.of_nat k = ((if neg then - Z.of_N v else Z.of_N v) mod 4294967296)%Z
  | None => k = 10
  end.
(** There is no number in the variable k. *)
Definition senseless (kvar : option (list N)) : Prop :=
  exists t, kvar = Some t /\ t <> [] /\ length t <= 15 /\ forall neg v, ~ begins_with_number t neg v.
(** [out] is the answer to the request with the variables [q] and [k] (what the index finds: S_Found). *)
Definition web_answer (c : collection) (r : option (list N) * option (list N)) (out : list (nat * list N)) : Prop :=
  exists t k, heard (fst r) t /\ counts (snd r) k /\ answer_found1 c {| rq_conj := true; rq_k := k; rq_text := t |} out.
(** A request that can be answered: k is a number and the answer can be reported. *)
Definition web_request (c : collection) (r : option (list N) * option (list N)) : Prop :=
  (exists k, counts (snd r) k) /\ forall out, web_answer c r out -> reportable c out.
(** The response: JSON with the suggestions, or, if there are none, a fixed text (which is not JSON, F22). *)
Definition responds (c : collection) (r : option (list N) * option (list N)) (data : list N) : Prop :=
  exists out, web_answer c r out /\
    (out <> [] -> exists v, is_json data v /\ suggestions (map snd out) v) /\
    (out = [] -> data = bytes "{""suggestions"":[""value"":"""",""data"":""""]}" ++ [10%N])%list.
(** No percent signs in the collection (F29). *)
Definition percent_free (c : collection) : Prop := forall t, In t (terms c) -> ~ In 37%N t.
(** Completions of at most [L] bytes; and the numbers of them that always fit into the result buffer (F13): 15 of 110 bytes, 10 of 166 bytes. *)
Definition short_texts (L : nat) (c : collection) : Prop := forall ids, In ids (comps c) -> length (text c ids) <= L.
Definition affordable (L k : nat) : Prop := 1 <= k <= 15 /\ k * L <= 1664.
