(** Specification: the input of the preprocessing scripts (README.md, "Input data format"): one completion per line, in lexicographical
    order; the first column is its id, the others are its words. Characters are code points, for Python 2 bytes. *)
From Coq Require Import Sorted.
From Verif Require Import Base S_Python S_Order S_Json S_Text S_Parse S_Iter S_Trie S_Collection M_Auto.
Local Open Scope N_scope.
Section Python.
Context {py : python}.

(** Characters of words: neither white space nor control characters below the space; no surrogates. *)
Definition white_space (c : N) : Prop :=
  match py with
  | py2 => 9 <= c <= 13 \/ c = 32
  | py3 => 9 <= c <= 13 \/ 28 <= c <= 32 \/ 8192 <= c <= 8202 \/ In c [133; 160; 5760; 8232; 8233; 8239; 8287; 12288]
  end.
Definition characters : N := match py with py2 => 256 | py3 => 1114112 end.
Definition letter (c : N) : Prop := 32 < c < characters /\ ~ 55296 <= c <= 57343 /\ ~ white_space c.
Definition is_word (w : list N) : Prop := w <> [] /\ Forall letter w.

(** A line, without its end: words separated by white space, optionally before and after. *)
Definition blank (c : N) : Prop := white_space c /\ c <> 10 /\ c <> 13.
Inductive row : list (list N) -> list N -> Prop :=
| row_end gap : Forall blank gap -> row [] gap
| row_word gap w ws text : Forall blank gap -> is_word w -> (text = [] \/ exists b t, text = b :: t /\ blank b) -> row ws text ->
    row (w :: ws) (gap ++ w ++ text).
(** A text: lines ended by \n or \r\n; the last one need not be ended. *)
Inductive table : list (list (list N)) -> list N -> Prop :=
| tab_nil : table [] []
| tab_last ws l : row ws l -> l <> [] -> table [ws] l
| tab_line ws l e rows text : row ws l -> e = [10] \/ e = [13; 10] -> table rows text -> table (ws :: rows) (l ++ e ++ text).

(** The bytes of a text: UTF-8; for Python 2, itself. *)
Definition code (c : N) : list N := match py with py2 => [c] | py3 => utf8 c end.
Definition encoded (s : list N) : list N := flat_map code s.

(** The completions: ids and words. *)
Definition entries := list (nat * list (list N)).
Definition is_input (es : entries) (text : list N) : Prop :=
  exists ids, Forall2 numeral ids (map (fun e => N.of_nat (fst e)) es) /\
    table (map (fun p => fst p :: snd (snd p)) (combine ids es)) text.

(** Some completion contains the word [w]. *)
Definition occurs (es : entries) (w : list N) : Prop := exists e, In e es /\ In w (snd e).

(** Distinct ids; lexicographical order (of the words separated by single spaces), so no completion twice; one to 63 words and at most 128
    bytes in each; fewer than 2^30 - 1 completions and distinct words ([vocab] lists them). *)
Record valid_input (es : entries) : Prop := {
  vi_some : es <> [];
  vi_words : Forall (fun e => (0 < length (snd e) <= 63)%nat /\ Forall is_word (snd e) /\ (length (encoded (concat (snd e))) <= 128)%nat) es;
  vi_sorted : lex_sorted (map (fun e => join (snd e)) es);
  vi_ids : NoDup (map fst es);
  vi_small : Forall (fun e => N.of_nat (fst e) < 4294967294) es;
  vi_few : N.of_nat (length es) < 1073741823;
  vi_vocab : exists vocab, N.of_nat (length vocab) < 1073741823 /\ forall w, occurs es w -> In w vocab
}.

(** The collection the index builders see: the bytes of the words, in order. *)
Record describes (es : entries) (c : collection) : Prop := {
  ds_terms : lex_sorted (terms c) /\ forall w, In w (terms c) <-> exists v, occurs es v /\ w = encoded v;
  ds_docs : docs c = map fst es;
  ds_comps : map (words_of c) (comps c) = map (fun e => map encoded (snd e)) es;
  ds_universe : universe c = S (fold_right Nat.max 0%nat (map fst es))
}.

(** The numbers of .mapped.stats: of the characters of the longest completion, without spaces, and of the nodes of each level of the trie
    (the distinct sequences of [i + 1] ids that completions, each followed by a 0, start with). *)
Definition longest_text (es : entries) : nat := fold_right Nat.max 0%nat (map (fun e => length (concat (snd e))) es).
Definition level_nodes (cs : list (list N)) (i : nat) : nat :=
  length (nodup (list_eq_dec N.eq_dec) (map (firstn (S i)) (filter (fun c => Nat.ltb i (length c)) (map (fun c => c ++ [0]) cs)))).
Definition stats_of (es : entries) (c : collection) : list N :=
  N.of_nat (length (terms c)) :: N.of_nat (longest_text es) :: N.of_nat (length (comps c)) :: N.of_nat (universe c) :: N.of_nat (num_levels (comps c)) ::
  map (fun i => N.of_nat (level_nodes (comps c) i)) (seq 0 (num_levels (comps c))).

(** What a query (bytes) is answered, in terms of the input: as [topk_answer] and [answer_to]. *)
Local Open Scope nat_scope.
Definition matches_all (es : entries) (ts : list (list N)) (last : list N) (ws : list (list N)) : Prop :=
  (forall t, In t ts -> (exists v, occurs es v /\ t = encoded v) -> In t ws) /\ exists w, In w ws /\ is_prefix last w.
Definition best (es : entries) (P : list (list N) -> Prop) (k : nat) (out : list (nat * list N)) : Prop :=
  StronglySorted lt (map fst out) /\ length out <= k /\
  (forall d s, In (d, s) out -> exists ws, In (d, ws) es /\ P (map encoded ws) /\ s = encoded (join ws)) /\
  (forall d ws, In (d, ws) es -> P (map encoded ws) ->
     In (d, encoded (join ws)) out \/ (length out = k /\ Forall (fun r => fst r < d) out)).
Definition completes (es : entries) (r : request) (out : list (nat * list N)) : Prop :=
  exists ts last, query_split (rq_text r) ts last /\
    best es (if rq_conj r then matches_all es ts last else prefix_match ts last) (rq_k r) out.
End Python.
