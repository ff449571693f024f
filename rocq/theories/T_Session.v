(** C83: sessions with the server. *)
From Coq Require Import String.
From Verif Require Import Base S_Order S_Vocab S_Parse M_Trie M_Containers S_Containers M_Auto M_Auto1 S_Collection S_Index S_Found S_Json M_Web M_Request S_Request S_Session.
From Verif Require Import P_Auto1 P_ListContainers P_Web P_Request P_Session T_Auto1 T_Request.
Local Open Scope nat_scope.

(** Any number of requests, one after the other, by any clients: every response is that of a server just started, and lists the answer to
    its own request. Missing: percent signs in the collection (F29); what cannot be reported; a response without suggestions is not JSON
    (F22); texts of more than 127 bytes are taken for empty ones (F61); [answer_found1] is what the search finds, which is less than what
    matches if the first term begins with the last word (F1). *)
Theorem C83_session_partial : forall K c,
  containers_ok K -> wf_collection c -> some_doc_positive c -> some_term_not_in_doc0 c -> percent_free c ->
  exists x, ac1_build K (files_of c) = Ok x /\
    forall fuel rs s, query_fuel c < fuel -> Forall (web_request c) rs -> state1_ok s ->
    exists datas s', serve_all K x fuel rs s = Ok (datas, s') /\ Forall2 (responds c) rs datas /\
      Forall2 (fun r data => exists s1, serve K x fuel (fst r) (snd r) state1_new = Ok (data, s1)) rs datas /\ state1_ok s'.
Proof. exact (fun K c HK Hwf Hp H0 Hpc => session_served K HK c Hwf Hp H0 Hpc). Qed.
(** With completions of at most [L] bytes and a number of terms that is no multiple of 17 (F23), every request for as many suggestions as the buffer
    can afford (up to 15 if [L] is 110) is answered, whatever its text. *)
Theorem C83_short_partial : forall K c L,
  containers_ok K -> wf_collection c -> sizes_ok c -> some_doc_positive c -> some_term_not_in_doc0 c -> percent_free c -> short_texts L c ->
  exists x, ac1_build K (files_of c) = Ok x /\
    forall fuel rs, query_fuel c < fuel -> Forall (fun r => exists k, counts (snd r) k /\ affordable L k) rs ->
    exists datas s', serve_all K x fuel rs state1_new = Ok (datas, s') /\ Forall2 (responds c) rs datas.
Proof.
  intros K c L HK Hwf Hz Hp H0 Hpc Ht. destruct (session_served K HK c Hwf Hp H0 Hpc) as (x & E & H). exists x. split; [exact E|]. intros fuel rs Hf Hrs.
  destruct (H fuel rs state1_new Hf) as (datas & s' & E1 & E2 & _); [|exact state1_new_ok|exists datas, s'; split; [exact E1|exact E2]].
  eapply Forall_impl; [|exact Hrs]. intros r (k & Hk & Hk'). exact (short_request c Hwf L r k Hz Ht Hk Hk').
Qed.
(** The first request that cannot be reported is undefined behaviour of the server. *)
Theorem C83_unreportable : forall K c,
  containers_ok K -> wf_collection c -> some_doc_positive c -> some_term_not_in_doc0 c ->
  exists x, ac1_build K (files_of c) = Ok x /\
    forall fuel q kv out s, query_fuel c < fuel -> state1_ok s ->
    web_answer c (q, kv) out -> ~ reportable c out -> serve K x fuel q kv s = UB.
Proof. exact (fun K c HK Hwf Hp H0 => session_ends K HK c Hwf Hp H0). Qed.
Definition all_sessions := (C83_session_partial, C83_short_partial, C83_unreportable).
Print Assumptions all_sessions.

(** Three requests: "b", nothing found, "b" again. *)
Definition three : list (option (list N) * option (list N)) :=
  [(Some (bytes "b"), Some (bytes "2")); (Some (bytes "zz"), None); (Some (bytes "b"), Some (bytes "2"))].
Example C83_nonvacuous :
  percent_free coll_ex /\ short_texts 110 coll_ex /\ sizes_ok coll_ex /\ some_doc_positive coll_ex /\ some_term_not_in_doc0 coll_ex /\
  Forall (fun r => exists k, counts (snd r) k /\ affordable 110 k) three /\
  let b := (bytes "{""suggestions"":[{""value"":""a bc"",""data"":""0""},{""value"":""b de"",""data"":""1""}]}" ++ [10%N])%list in
  (do x <- ac1_build list_containers (files_of coll_ex);
   do (datas, s) <- serve_all list_containers x (query_fuel coll_ex + 1) three state1_new;
   Ok datas) = Ok [b; (bytes "{""suggestions"":[""value"":"""",""data"":""""]}" ++ [10%N])%list; b].
Proof.
  split; [intros t Ht Hx; cbn in Ht; repeat (destruct Ht as [<-|Ht]; [cbn in Hx; repeat (destruct Hx as [Hx|Hx]; [discriminate Hx|]); exact Hx|]); exact Ht|].
  split; [intros ids H; cbn in H; repeat (destruct H as [<-|H]; [vm_compute; lia|]); destruct H|]. split; [discriminate|].
  split; [exists 3; cbn; auto|].
  split; [exists 2; split; [cbn; lia|]; intros H; vm_compute in H; repeat (destruct H as [H|H]; try discriminate H); exact H|].
  split; [|cbv zeta; vm_compute; reflexivity].
  assert (H2 : counts (Some (bytes "2")) 2).
  { apply asks_counts; [|reflexivity]. left. split; [cbn; lia|]. split; [split; [discriminate|repeat constructor; discriminate]|split; [discriminate|reflexivity]]. }
  unfold three. apply Forall_cons; [exists 2|apply Forall_cons; [exists 10|apply Forall_cons; [exists 2|apply Forall_nil]]]; (split; [exact H2 || reflexivity|unfold affordable; lia]).
Qed.
