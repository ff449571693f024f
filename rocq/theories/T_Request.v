(** C80: the server answers what was typed. *)
From Coq Require Import String.
From Verif Require Import Base S_Order S_Vocab S_Parse M_Trie M_Containers S_Containers M_Auto M_Auto1 S_Collection S_Index S_Found S_Blank S_Json M_Web M_Request S_Request.
From Verif Require Import P_Auto1 P_ListContainers P_Web P_Request T_Auto1.
Local Open Scope nat_scope.

(** Queries of at most 127 bytes, with k as the page sends it: JSON for the answer to the query (with the exclusions of C39). *)
Theorem C80_typed_partial : forall K c,
  containers_ok K -> wf_collection c -> sizes_ok c -> some_doc_positive c -> some_term_not_in_doc0 c ->
  exists x, ac1_build K (files_of c) = Ok x /\
    forall fuel k q kvar ts last s,
    query_fuel c < fuel -> length q <= 127 -> asks_for kvar k -> 1 <= k <= MAX_K -> query_split q ts last -> first_term_ok c last -> state1_ok s ->
    exists out, topk_answer c (conj_match c ts last) k out /\
      (fits_pool out -> out <> [] -> no_percent out ->
       exists data v s', serve K x fuel (Some q) kvar s = Ok (data, s') /\ is_json data v /\ suggestions (map snd out) v /\ state1_ok s').
Proof. exact (fun K c HK Hwf Hz Hp H0 => typed_served K HK c Hwf Hp H0 Hz). Qed.
(** Longer queries, like absent ones, are answered with the best completions of the whole collection. *)
Theorem C80_long : forall K c,
  containers_ok K -> wf_collection c -> some_doc_positive c -> some_term_not_in_doc0 c ->
  exists x, ac1_build K (files_of c) = Ok x /\
    forall fuel k q kvar s,
    query_fuel c < fuel -> q = None \/ (exists t, q = Some t /\ 127 < length t) -> asks_for kvar k -> (N.of_nat k < 4294967296)%N -> state1_ok s ->
    exists out, best c k out /\
      (reportable c out -> out <> [] -> no_percent out ->
       exists data v s', serve K x fuel q kvar s = Ok (data, s') /\ is_json data v /\ suggestions (map snd out) v) /\
      (~ reportable c out -> serve K x fuel q kvar s = UB).
Proof. exact (fun K c HK Hwf Hp H0 => long_served K HK c Hwf Hp H0). Qed.
Definition all_served := (C80_typed_partial, C80_long).
Print Assumptions all_served.

Definition http (c : collection) (q kvar : option (list N)) : res (list N) :=
  do x <- ac1_build list_containers (files_of c);
  do (out, s) <- serve list_containers x (query_fuel c + 1) q kvar state1_new;
  Ok out.

(** F61: 128 times x, which no completion matches: two suggestions. *)
Theorem C80_long_refuted :
  let q := repeat 120%N 128 in
  wf_collection coll_ex /\ query_split q [] q /\ (forall d ids, is_doc coll_ex d ids -> ~ conj_match coll_ex [] q (words_of coll_ex ids)) /\
  exists data v, http coll_ex (Some q) (Some (bytes "2")) = Ok data /\ is_json data v /\ suggestions [bytes "a bc"; bytes "b de"] v.
Proof.
  cbv zeta. split; [apply wf_collectionb_ok; reflexivity|]. split.
  - exists []. split; [reflexivity|]. split; [|constructor]. apply Forall_forall. intros x Hx. apply repeat_spec in Hx. subst x. discriminate.
  - split.
    + intros d ids (i & Hi & Hd) [_ (w & Hw & (t & Hx))].
      assert (Hl : length w = 128 + length t) by (rewrite Hx, app_length, repeat_length; reflexivity). clear Hx.
      do 6 (destruct i as [|i]; [injection Hd as <-; vm_compute in Hw; repeat (destruct Hw as [<-|Hw]; [discriminate Hl|]); exact Hw|]).
      destruct i; discriminate Hd.
    + destruct (body_json {| p_scores := [1; 2]; p_offsets := [0; 4; 8]; p_data := bytes "a bcb de" |} [(1, bytes "a bc"); (2, bytes "b de")]) as (data & v & E & Hj & Hv);
        [reflexivity|discriminate|].
      exists data, v. split; [|split; [exact Hj|exact Hv]]. rewrite <- E. vm_compute. reflexivity.
Qed.
Print Assumptions C80_long_refuted.

Example C80_nonvacuous :
  asks_for (Some (bytes "2")) 2 /\ asks_for None 10 /\
  http coll_ex (Some (bytes "b")) (Some (bytes "2")) =
    Ok (bytes "{""suggestions"":[{""value"":""a bc"",""data"":""0""},{""value"":""b de"",""data"":""1""}]}" ++ [10%N])%list.
Proof.
  split; [|split; [reflexivity|vm_compute; reflexivity]].
  left. split; [cbn; lia|]. split; [split; [discriminate|repeat constructor; discriminate]|split; [discriminate|reflexivity]].
Qed.
