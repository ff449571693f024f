(** Specification: collections of completions, queries on them, and the files that represent them. *)
From Coq Require Import Sorted.
From Verif Require Import Base S_Order S_Vocab S_Completions S_Parse S_Iter S_Trie M_Auto.

(** A collection: the vocabulary in order; the completions in file order, as sequences of 1-based
    positions in the vocabulary; the doc id (= rank) of each; a strict bound on doc ids. *)
Record collection := {
  terms : list (list N);
  comps : list (list N);
  docs : list nat;
  universe : nat
}.

(** The words of a completion and its text: the words separated by single spaces. *)
Definition word (c : collection) (x : N) : list N := nth (N.to_nat x - 1) (terms c) [].
Definition words_of (c : collection) (ids : list N) : list (list N) := map (word c) ids.
Fixpoint join (ws : list (list N)) : list N :=
  match ws with
  | [] => []
  | w :: ws' => match ws' with [] => w | _ => w ++ 32%N :: join ws' end
  end.
Definition text (c : collection) (ids : list N) : list N := join (words_of c ids).

(** Well-formed collections, as the scripts in test_data produce them and parameters::load() accepts them:
    sorted vocabulary and completions; every completion has its own doc id; completions consist of terms;
    every term occurs; the characters of a completion (spaces not counted) are at most 128; fewer than
    2^30 - 1 completions and terms (the limit of the range-minimum structure, see T_Cart). *)
Record wf_collection (c : collection) : Prop := {
  wf_terms : wf_vocab (terms c);
  wf_comps : wf_completions (comps c);
  wf_ids : Forall (Forall (fun x => N.to_nat x <= length (terms c))) (comps c);
  wf_used : forall x, 1 <= x <= length (terms c) -> exists ids, In ids (comps c) /\ In (N.of_nat x) ids;
  wf_docs_len : length (docs c) = length (comps c);
  wf_docs_nodup : NoDup (docs c);
  wf_docs_lt : Forall (fun d => d < universe c) (docs c);
  wf_universe : (N.of_nat (universe c) < 4294967295)%N;
  wf_text : Forall (fun ids => length (concat (words_of c ids)) <= 128) (comps c);
  wf_few : (N.of_nat (length (comps c)) < 1073741823)%N /\ (N.of_nat (length (terms c)) < 1073741823)%N
}.

(** The completion [ids] has doc id [d]. *)
Definition is_doc (c : collection) (d : nat) (ids : list N) : Prop :=
  exists i, nth_error (docs c) i = Some d /\ nth_error (comps c) i = Some ids.

(** What the scripts write. .inverted: for every term the increasing list of the doc ids of the completions
    containing it; .forward: for every doc id the tokens of its completion (none if there is no such
    completion). *)
Fixpoint find_doc (ds : list nat) (cs : list (list N)) (d : nat) : list N :=
  match ds, cs with
  | d' :: ds', ids :: cs' => if d' =? d then ids else find_doc ds' cs' d
  | _, _ => []
  end.
Definition forward_list (c : collection) (d : nat) : list N := find_doc (docs c) (comps c) d.
Definition posting_list (c : collection) (x : nat) : list nat :=
  filter (fun d => existsb (N.eqb (N.of_nat x)) (forward_list c d)) (seq 0 (universe c)).

Definition files_of (c : collection) : files := {|
  f_dict := terms c;
  f_mapped := records (docs c) (comps c);
  f_levels := num_levels (comps c);
  f_universe := universe c;
  f_inverted := map (posting_list c) (seq 1 (length (terms c)));
  f_forward := map (forward_list c) (seq 0 (universe c))
|}.

(** A completion with words [ws] matches a query with complete tokens [ts] and last token [last]:
    prefix search: [ws] starts with [ts], followed by a word that extends [last]. *)
Definition prefix_match (ts : list (list N)) (last : list N) (ws : list (list N)) : Prop :=
  exists w rest, ws = ts ++ w :: rest /\ is_prefix last w.

(** conjunctive search: every complete token that is a term of the collection is among [ws], in any
    order, and some word extends [last]. *)
Definition conj_match (c : collection) (ts : list (list N)) (last : list N) (ws : list (list N)) : Prop :=
  (forall t, In t ts -> In t (terms c) -> In t ws) /\ exists w, In w ws /\ is_prefix last w.

(** [out] is the answer to a top-k query for the completions whose words satisfy [P]: pairs (doc id, text), by
    strictly increasing doc id; at most [k]; each belongs to a matching completion; and a matching
    completion is missing only if there are [k] results with smaller doc ids. *)
Definition topk_answer (c : collection) (P : list (list N) -> Prop) (k : nat) (out : list (nat * list N)) : Prop :=
  StronglySorted lt (map fst out) /\ length out <= k /\
  (forall d s, In (d, s) out -> exists ids, is_doc c d ids /\ P (words_of c ids) /\ s = text c ids) /\
  (forall d ids, is_doc c d ids -> P (words_of c ids) ->
     In (d, text c ids) out \/ (length out = k /\ Forall (fun r => fst r < d) out)).

(** The result buffer has 15 * 128 bytes; extracting a term may write up to 256 bytes. *)
Definition fits_pool (out : list (nat * list N)) : Prop :=
  length (concat (map snd out)) + 256 <= POOL_SIZE.

(** Findings F1 and F2: the positive theorems exclude queries whose last token strictly extends to the
    first term; and, for the integer dictionary, queries matching the first completion unless that
    completion is exactly the complete tokens and the first term extending the last token. *)
Definition first_term_ok (c : collection) (last : list N) : Prop :=
  last <> [] -> is_prefix last (nth 0 (terms c) []) -> nth 0 (terms c) [] = last.
Definition first_completion_ok (c : collection) (ts : list (list N)) (last : list N) : Prop :=
  forall w rest, words_of c (nth 0 (comps c) []) = ts ++ w :: rest -> is_prefix last w ->
    rest = [] /\ forall v, In v (terms c) -> is_prefix last v -> v = w \/ lex_lt w v.

(** Finding F11: compact_vector::build throws if all values are zero. *)
Definition some_doc_positive (c : collection) : Prop := exists d, In d (docs c) /\ 0 < d.
Definition some_term_not_in_doc0 (c : collection) : Prop :=
  exists x, 1 <= x <= length (terms c) /\ ~ In 0 (posting_list c x).

(** Finding F23. *)
Definition sizes_ok (c : collection) : Prop := not_multiple_of_17 (length (terms c)).
Definition sizes_ok2 (c : collection) : Prop :=
  not_multiple_of_17 (length (terms c)) /\ not_multiple_of_17 (length (comps c)).

(** A bound on the number of iterations of any loop of a query. *)
Definition query_fuel (c : collection) : nat := (universe c + 2) * (length (terms c) + 2).
