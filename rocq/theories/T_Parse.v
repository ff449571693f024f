(** C31 (query parsing) and the deduplication part of C32. *)
From Verif Require Import Base S_Order S_Parse S_Vocab M_Parse M_Fc P_Parse P_ParseFc.

(** Every query has exactly one decomposition into complete tokens and last token. *)
Theorem C31_split_exists_unique : forall q,
  exists ts last, query_split q ts last /\
    forall ts' last', query_split q ts' last' -> ts' = ts /\ last' = last.
Proof. exact query_split_exists_unique. Qed.
Print Assumptions C31_split_exists_unique.

(** Parsing with the front-coded dictionary of any well-formed vocabulary.
    The ids are the 1-based positions of the tokens in the vocabulary. With
    must_find_prefix an unknown token makes parse fail (None); without it
    unknown tokens are skipped. [dec] is the static buffer of locate. *)
Theorem C31_parse : forall terms,
  wf_vocab terms -> not_multiple_of_17 (length terms) ->
  exists d, fc_build terms = Ok d /\
  forall must q dec ts last, length dec = 256 -> query_split q ts last ->
  exists dec', length dec' = 256 /\
   ((must = true /\ ~ Forall (fun t => In t terms) ts /\
     parse (list N) (fc_locate d) must q dec = Ok (None, dec')) \/
    ((must = true -> Forall (fun t => In t terms) ts) /\
     exists ids, parse (list N) (fc_locate d) must q dec = Ok (Some (ids, last), dec') /\
       positions terms ts ids)).
Proof. exact parse_fc. Qed.
Print Assumptions C31_parse.

(** The same for any number of terms: parse knows the terms that the dictionary holds (F23). *)
Theorem C31_parse_any : forall terms, wf_vocab terms ->
  exists d, fc_build terms = Ok d /\
  forall must q dec ts last, length dec = 256 -> query_split q ts last ->
  exists dec', length dec' = 256 /\
   ((must = true /\ ~ Forall (fun t => In t (stored terms)) ts /\
     parse (list N) (fc_locate d) must q dec = Ok (None, dec')) \/
    ((must = true -> Forall (fun t => In t (stored terms)) ts) /\
     exists ids, parse (list N) (fc_locate d) must q dec = Ok (Some (ids, last), dec') /\
       positions (stored terms) ts ids)).
Proof. exact parse_fc_any. Qed.
Print Assumptions C31_parse_any.

(** deduplicate yields the strictly increasing list of the same ids; hence it does
    not depend on repetitions or order of the query tokens. *)
Theorem C32_deduplicate : forall c1 c2,
  (forall x, In x c1 <-> In x c2) ->
  deduplicate c1 = deduplicate c2 /\
  (forall x, In x (deduplicate c1) <-> In x c1) /\
  (forall i j, i < j < length (deduplicate c1) -> nth i (deduplicate c1) 0 < nth j (deduplicate c1) 0).
Proof. exact deduplicate_full. Qed.
Print Assumptions C32_deduplicate.

(** "ab  c d" = tokens [ab; c], last token d. *)
Example C31_nonvacuous :
  query_split [97;98;32;32;99;32;100]%N [[97;98];[99]]%N [100]%N.
Proof.
  exists [97;98;32;32;99;32]%N. split; [reflexivity|]. split; [repeat constructor; discriminate|].
  apply (words_word [97;98]%N); [discriminate|repeat constructor; discriminate|].
  apply words_space. apply (words_word [99]%N); [discriminate|repeat constructor; discriminate|].
  constructor.
Qed.
