(** C81: from the typed text to the highlighted suggestions. *)
From Coq Require Import String.
From Verif Require Import Base S_Order S_Vocab S_Parse M_Fc M_Trie M_Containers S_Containers M_Auto M_Auto1 S_Collection S_Index S_Json M_Web M_Page S_Page M_Request S_Request S_Shown.
From Verif Require Import P_ListContainers P_Request P_Shown T_Auto1 T_Page T_Request.
Local Open Scope nat_scope.

(** The text q, typed into the page, is sent to the server, and the page receives JSON for the answer to it. Every suggestion is shown in
    full; what has been typed of the last word is in bold, and so are the other words if they are terms of the collection (others are
    ignored by the search). Characters below 128 are the same in the server's bytes and the page's strings; others are not related here.
    Excluded: what C79 and C80 exclude. *)
Theorem C81_shown_partial : forall K c same re,
  containers_ok K -> wf_collection c -> sizes_ok c -> some_doc_positive c -> some_term_not_in_doc0 c -> regexp_ok same re -> (forall x, same x x = true) ->
  exists x, ac1_build K (files_of c) = Ok x /\
    forall fuel k q kvar ts last s,
    query_fuel c < fuel -> length q <= 127 -> asks_for kvar k -> 1 <= k <= MAX_K -> query_split q ts last -> first_term_ok c last -> state1_ok s ->
    last <> [] -> simple_text q ->
    exists out, topk_answer c (conj_match c ts last) k out /\
      (fits_pool out -> out <> [] -> no_percent out ->
       exists data v s', serve K x fuel (Some q) kvar s = Ok (data, s') /\ is_json data v /\ suggestions (map snd out) v /\ state1_ok s') /\
      (forall d text, In (d, text) out -> no_own_tag text ->
       exists html t, format_result re text q = Ok html /\ shows false html t /\ map fst t = text /\ marked same last t /\
         forall w, In w ts -> In w (terms c) -> marked same w t).
Proof.
  intros K c same re HK Hwf Hz Hp H0 Hre Hr. destruct (C80_typed_partial K c HK Hwf Hz Hp H0) as (x & E & H). exists x. split; [exact E|].
  intros fuel k q kvar ts last s A1 A2 A3 A4 A5 A6 A7 A8 A9. destruct (H fuel k q kvar ts last s A1 A2 A3 A4 A5 A6 A7) as (out & B1 & B2).
  exists out. split; [exact B1|]. split; [exact B2|]. exact (answer_shown same re c q ts last k out Hre Hr A5 A8 A9 B1).
Qed.
Print Assumptions C81_shown_partial.

(** "bc d" typed: one of the two words complete, the other begun. *)
Example C81_nonvacuous :
  let q := bytes "bc d" in
  regexp_ok N.eqb re_words /\ (forall x, N.eqb x x = true) /\ query_split q [bytes "bc"] (bytes "d") /\ simple_text q /\
  first_term_ok coll_ex (bytes "d") /\ no_own_tag (bytes "bc a de") /\
  http coll_ex (Some q) (Some (bytes "2")) = Ok (bytes "{""suggestions"":[{""value"":""bc a de"",""data"":""0""}]}" ++ [10%N])%list /\
  format_result re_words (bytes "bc a de") q = Ok (bytes "<strong>bc</strong> a <strong>d</strong>e").
Proof.
  cbv zeta. split; [exact re_words_ok|]. split; [exact N.eqb_refl|]. split.
  { exists (bytes "bc "). split; [reflexivity|]. split; [repeat constructor; discriminate|].
    apply (words_word (bytes "bc") [] []); [discriminate|repeat constructor; discriminate|constructor]. }
  split; [split; [apply ordinaryb_ok; reflexivity|repeat constructor; intros H; (reflexivity || discriminate H)]|]. split.
  { intros _ (t & Ht). discriminate Ht. }
  split; [|split; vm_compute; reflexivity].
  split; intros (a & b & E);
    repeat (destruct a as [|? a]; [vm_compute in E; discriminate E|cbn in E; injection E as _ E]); destruct a; discriminate E.
Qed.
