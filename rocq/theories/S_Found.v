(** Specification: what the indexes actually take for an extension of the last token and for a match, including the
    defects F1, F2 and F23. The theorems about these need no condition on the query or the size of the collection. *)
From Verif Require Import Base S_Order S_Vocab S_Parse M_Auto S_Collection S_Room.

(** The words the dictionary holds (F23). *)
Definition known (c : collection) (w : list N) : Prop := In w (stored (terms c)).

(** The words that the last token [last] leads to. *)
Definition found (c : collection) (last w : list N) : Prop :=
  found_by (nth 0 (terms c) []) last w /\ (last = [] \/ known c w).

(** [prefix_match] and [conj_match] for any condition [R] on the word of the last token, instead of [is_prefix last]. *)
Definition prefix_by (c : collection) (R : list N -> Prop) (ts ws : list (list N)) : Prop :=
  Forall (known c) ts /\ exists w rest, ws = ts ++ w :: rest /\ R w.
Definition conj_by (c : collection) (R : list N -> Prop) (ts ws : list (list N)) : Prop :=
  (forall t, In t ts -> known c t -> In t ws) /\ exists w, In w ws /\ R w.

(** Prefix search with the integer dictionary: only the completions it holds are found (F23); and the first completion
    only if it consists of the complete tokens and the least of the words the last token leads to (F2). *)
Definition prefix_found (c : collection) (ts : list (list N)) (last : list N) (ws : list (list N)) : Prop :=
  prefix_by c (found c last) ts ws /\ (exists ids, In ids (stored (comps c)) /\ ws = words_of c ids) /\
  (ws = words_of c (nth 0 (comps c) []) ->
   exists w, ws = ts ++ [w] /\ forall v, In v (terms c) -> found c last v -> v = w \/ lex_lt w v).

(** How many results there are at most: the searches take k = 0 for no limit (F10). *)
Definition limit (c : collection) (k : nat) : nat := if k =? 0 then length (comps c) else k.

(** The answer to a request with an index of type 1; and of types 2 and 3, whose prefix search uses the integer dictionary. *)
Definition answer_found1 (c : collection) (r : request) (out : list (nat * list N)) : Prop :=
  exists ts last, query_split (rq_text r) ts last /\
    topk_answer c (if rq_conj r then conj_by c (found c last) ts else prefix_by c (found c last) ts) (limit c (rq_k r)) out.
Definition answer_found2 (c : collection) (r : request) (out : list (nat * list N)) : Prop :=
  exists ts last, query_split (rq_text r) ts last /\
    topk_answer c (if rq_conj r then conj_by c (found c last) ts else prefix_found c ts last) (limit c (rq_k r)) out.

(** An answer that can be reported: there are at most 15 results (F10), the result buffer has room for them (F13) and the
    dictionary holds all their words (F23); for types 2, 3 and 4, the integer dictionary also holds their completions. *)
Definition legible (c : collection) (out : list (nat * list N)) : Prop :=
  forall d s ids x, In (d, s) out -> is_doc c d ids -> In x ids -> known c (word c x).
Definition reportable (c : collection) (out : list (nat * list N)) : Prop :=
  length out <= MAX_K /\ has_room c 0 out /\ legible c out.
Definition retained (c : collection) (out : list (nat * list N)) : Prop := forall d s, In (d, s) out -> In d (stored (docs c)).
Definition reportable2 (c : collection) (out : list (nat * list N)) : Prop := reportable c out /\ retained c out.

(** Any query and any k, an answer that can be reported. *)
Definition any_request (ok : list (nat * list N) -> Prop) (A : request -> list (nat * list N) -> Prop) (r : request) : Prop :=
  forall out, A r out -> ok out.

(** Conjunctive search with an index of type 2 decodes each candidate, that is, each completion with the known words of [ts],
    to the place of the next result, before it knows whether it is a result. If the search does not stop at 15 results,
    there is no place for a candidate behind 15 results. *)
Definition overruns (c : collection) (ts : list (list N)) (k : nat) (out : list (nat * list N)) : Prop :=
  (k = 0 \/ MAX_K < k) /\ length out = MAX_K /\ (exists t, In t ts /\ known c t) /\
  exists d ids, is_doc c d ids /\ (forall t, In t ts -> known c t -> In t (words_of c ids)) /\ Forall (fun r => fst r < d) out.

(** And it cannot decode a candidate that the dictionary has lost (F23). It meets all candidates up to the last result if
    there are k results, and otherwise all of them, unless the last token leads to no word. *)
Definition stumbles (c : collection) (ts : list (list N)) (last : list N) (k : nat) (out : list (nat * list N)) : Prop :=
  (exists t, In t ts /\ known c t) /\ (exists w, In w (terms c) /\ found c last w) /\
  exists d ids, is_doc c d ids /\ (forall t, In t ts -> known c t -> In t (words_of c ids)) /\ ~ In d (stored (docs c)) /\
    (k = 0 \/ length out < k \/ exists r, In r out /\ d <= fst r).

(** Requests to an index of type 2. *)
Definition any_request2 (c : collection) (r : request) : Prop :=
  (rq_conj r = true -> forall ts last out, query_split (rq_text r) ts last -> answer_found2 c r out ->
     ~ overruns c ts (rq_k r) out /\ ~ stumbles c ts last (rq_k r) out) /\
  any_request (reportable2 c) (answer_found2 c) r.
