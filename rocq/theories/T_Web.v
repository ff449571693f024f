(** C39 (and C38 over HTTP): the response of /topcomp. *)
From Coq Require Import String.
From Verif Require Import Base S_Order S_Vocab S_Parse M_Trie M_Containers S_Containers M_Auto M_Auto1 S_Collection S_Index S_Json M_Web.
From Verif Require Import P_Auto1 P_ListContainers P_Web T_Auto1.
Local Open Scope nat_scope.

(** For every non-empty list of results, whatever bytes they consist of, the body is JSON, its values decode to the strings, in order;
    and it is UTF-8 if they are. *)
Theorem C39_body_json_partial : forall p rs, pool_results p = Ok rs -> rs <> [] ->
  exists data v, body p = Ok data /\ is_json data v /\ suggestions (map snd rs) v /\
    (Forall (fun r => utf8_text (snd r)) rs -> utf8_text data).
Proof.
  intros p rs E Hne. destruct (body_json p rs E Hne) as (data & v & Eb & Hj & Hs). exists data, v.
  split; [exact Eb|]. split; [exact Hj|]. split; [exact Hs|]. exact (body_utf8 p rs data E Hne Eb).
Qed.
Print Assumptions C39_body_json_partial.

(** The whole request, for an index over any collection, any state left by earlier queries, k absent or a number from 1 to 15: the response
    is JSON for the answer to the query. Excluded: what C02 excludes, empty answers and completions containing a percent sign (both refuted below). *)
Theorem C39_topcomp_partial : forall K c,
  containers_ok K -> wf_collection c -> sizes_ok c -> some_doc_positive c -> some_term_not_in_doc0 c ->
  exists x, ac1_build K (files_of c) = Ok x /\
    forall fuel k q kvar ts last s,
    query_fuel c < fuel -> (kvar = [] /\ k = 10 \/ decimal kvar k) -> 1 <= k <= MAX_K ->
    query_split q ts last -> first_term_ok c last -> state1_ok s ->
    exists out, topk_answer c (conj_match c ts last) k out /\
      (fits_pool out -> out <> [] -> Forall (fun r => ~ In 37%N (snd r)) out ->
       exists data v s', topcomp K x fuel q kvar s = Ok (data, s') /\ is_json data v /\ suggestions (map snd out) v /\ state1_ok s').
Proof.
  intros K c HK Hwf H17 Hp H0. destruct (auto1_spec K HK c Hwf Hp H0 H17) as (x & E & H). exists x. split; [exact E|].
  intros fuel k q kvar ts last s A1 A2 A3 A5 A6 A7. destruct (H fuel k q ts last s A1 A3 A5 A6 A7) as (_ & out & Ho & Hq). exists out. split; [exact Ho|].
  intros B1 B2 B3. destruct (Hq B1) as (s' & Es & Er & Hs').
  destruct (body_json _ _ Er B2) as (data & v & Eb & Hj & Hv). exists data, v, s'.
  split; [|split; [exact Hj|split; [exact Hv|exact Hs']]]. unfold topcomp.
  assert (Ek : (match kvar with [] => Ok 10%N | _ => stoull kvar end) = Ok (N.of_nat k)).
  { destruct A2 as [[-> ->]|A2]; [reflexivity|]. destruct kvar as [|b kvar]; [destruct A2 as ((A2 & _) & _); congruence|].
    apply stoull_ok; [exact A2|]. unfold MAX_K in A3. lia. }
  rewrite Ek. cbn [bind]. rewrite N.mod_small, Nat2N.id by (unfold MAX_K in A3; lia). rewrite Es. cbn [bind]. rewrite Eb. cbn [bind].
  rewrite (body_printf _ _ _ Er B2 Eb B3). reflexivity.
Qed.
Print Assumptions C39_topcomp_partial.

(** The index over a collection answering one request. *)
Definition web (c : collection) (q kvar : list N) : res (list N) :=
  do x <- ac1_build list_containers (files_of c);
  do (out, s) <- topcomp list_containers x (query_fuel c + 1) q kvar state1_new;
  Ok out.

(** F22: if nothing matches, the response is not JSON. *)
Theorem C39_empty_refuted : exists data, web coll_ex (bytes "x") [] = Ok data /\ forall v, ~ is_json data v.
Proof. eexists. split; [vm_compute; reflexivity|]. exact empty_body_bad. Qed.
Print Assumptions C39_empty_refuted.

(** F29: the body is used as a format: the completion "5%%" is reported as "5%", and "5% a" makes the server read an argument it was
    not given. *)
Definition coll_percent : collection :=
  {| terms := [bytes "5%"; bytes "5%%"; bytes "a"]; comps := [[1; 3]; [2]; [3]]%N; docs := [0; 1; 2]; universe := 3 |}.
Theorem C39_percent_refuted :
  wf_collection coll_percent /\
  (exists data v, web coll_percent (bytes "5%%") [] = Ok data /\ is_json data v /\ suggestions [bytes "5%"] v) /\
  web coll_percent (bytes "5% a") [] = UB.
Proof.
  split; [apply wf_collectionb_ok; reflexivity|]. split; [|vm_compute; reflexivity].
  destruct (body_json {| p_scores := [1]; p_offsets := [0; 2]; p_data := bytes "5%" |} [(1, bytes "5%")]) as (data & v & E & Hj & Hv); [reflexivity|discriminate|].
  exists data, v. split; [|split; [exact Hj|exact Hv]]. rewrite <- E. vm_compute. reflexivity.
Qed.
Print Assumptions C39_percent_refuted.

(** F10 over HTTP: k=16 in the URL makes the server write past the scores; k=x ends it with an exception. *)
Theorem C38_http_k_refuted :
  wf_collection coll_16 /\ web coll_16 [] (bytes "16") = UB /\ web coll_16 [] (bytes "x") = Exn.
Proof. split; [apply wf_collectionb_ok; vm_compute; reflexivity|]. split; vm_compute; reflexivity. Qed.
Print Assumptions C38_http_k_refuted.

(** A response, with a quotation mark and a control character in the strings. *)
Example C39_nonvacuous :
  decimal (bytes "2") 2 /\ web coll_ex (bytes "b") (bytes "2") =
    Ok (bytes "{""suggestions"":[{""value"":""a bc"",""data"":""0""},{""value"":""b de"",""data"":""1""}]}" ++ [10%N])%list /\
  body {| p_scores := [1]; p_offsets := [0; 4]; p_data := [97; 34; 31; 195]%N |} =
    Ok (bytes "{""suggestions"":[{""value"":""a\u0022\u001f" ++ [195%N] ++ bytes """,""data"":""0""}]}" ++ [10%N])%list.
Proof.
  split; [split; [split; [discriminate|repeat constructor; discriminate]|split; [discriminate|reflexivity]]|].
  split; vm_compute; reflexivity.
Qed.
