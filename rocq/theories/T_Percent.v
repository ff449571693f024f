(** C86: what arrives of the suggestions. *)
From Coq Require Import String.
From Verif Require Import Base S_Order S_Vocab S_Parse M_Trie M_Containers S_Containers M_Auto M_Auto1 S_Collection S_Index S_Found S_Json M_Web M_Request S_Request S_Session S_Percent.
From Verif Require Import P_Auto1 P_ListContainers P_Web P_Request P_Session P_Percent T_Auto1 T_Web T_Request.
Local Open Scope nat_scope.

(** Every response with suggestions: of two percent signs one arrives, and a single one (in any suggestion) is undefined behaviour (F29);
    all else arrives unchanged. *)
Theorem C86_percent : forall K c,
  containers_ok K -> wf_collection c -> some_doc_positive c -> some_term_not_in_doc0 c ->
  exists x, ac1_build K (files_of c) = Ok x /\
    forall fuel q kv out s, query_fuel c < fuel -> state1_ok s -> web_answer c (q, kv) out -> reportable c out -> out <> [] ->
    (forall texts, Forall2 halved (map snd out) texts ->
      exists data v s', serve K x fuel q kv s = Ok (data, s') /\ is_json data v /\ suggestions texts v /\ state1_ok s') /\
    ((forall texts, ~ Forall2 halved (map snd out) texts) -> serve K x fuel q kv s = UB).
Proof. exact (fun K c HK Hwf Hp H0 => percent_served K HK c Hwf Hp H0). Qed.
(** So exactly the texts without percent signs arrive as they are. *)
Theorem C86_unchanged : forall text, halved text text <-> ~ In 37%N text.
Proof. exact halved_same. Qed.
(** What arrives is determined. *)
Theorem C86_determined : forall text t t', halved text t -> halved text t' -> t = t'.
Proof. intros text t t' H H'. apply halve_halved in H, H'. congruence. Qed.
Definition all_percent := (C86_percent, C86_unchanged, C86_determined).
Print Assumptions all_percent.

(** F29: "5%%" arrives as "5%". *)
Theorem C86_percent_refuted :
  let q := Some (bytes "5%%") in
  wf_collection coll_percent /\ halved (bytes "5%%") (bytes "5%") /\ (forall t, ~ halved (bytes "5% a") t) /\
  http coll_percent q None = Ok (bytes "{""suggestions"":[{""value"":""5%"",""data"":""0""}]}" ++ [10%N])%list /\
  http coll_percent (Some (bytes "5% a")) None = UB.
Proof.
  cbv zeta. split; [apply wf_collectionb_ok; reflexivity|]. split; [|split; [|split; vm_compute; reflexivity]].
  - apply halved_other; [discriminate|]. apply halved_percent. constructor.
  - intros t H. apply halve_halved in H. vm_compute in H. discriminate H.
Qed.
Print Assumptions C86_percent_refuted.

(** C84 and C83 without any condition on percent signs. Every request: an exception if there is no number in k; otherwise exactly one answer, which
    arrives if it can be sent, and is undefined behaviour if not. *)
Theorem C84_all_requests : forall K c,
  containers_ok K -> wf_collection c -> some_doc_positive c -> some_term_not_in_doc0 c ->
  exists x, ac1_build K (files_of c) = Ok x /\
    forall fuel q kv s, query_fuel c < fuel -> state1_ok s ->
    senseless kv /\ serve K x fuel q kv s = Exn \/
    ~ senseless kv /\ exists out, (forall o, web_answer c (q, kv) o <-> o = out) /\
      (sendable c out -> exists data s', serve K x fuel q kv s = Ok (data, s') /\ arrives c (q, kv) data /\ state1_ok s') /\
      (~ sendable c out -> serve K x fuel q kv s = UB).
Proof. exact (fun K c HK Hwf Hp H0 => request_sent K HK c Hwf Hp H0). Qed.
(** Sessions of requests with answers that can be sent. Missing: the others; F1 and F23 (S_Found). *)
Theorem C83_sent_partial : forall K c,
  containers_ok K -> wf_collection c -> some_doc_positive c -> some_term_not_in_doc0 c ->
  exists x, ac1_build K (files_of c) = Ok x /\
    forall fuel rs s, query_fuel c < fuel -> state1_ok s ->
    Forall (fun r => ~ senseless (snd r) /\ forall out, web_answer c r out -> sendable c out) rs ->
    exists datas s', serve_all K x fuel rs s = Ok (datas, s') /\ Forall2 (arrives c) rs datas /\ state1_ok s'.
Proof. exact (fun K c HK Hwf Hp H0 => session_sent K HK c Hwf Hp H0). Qed.
Definition all_sent := (C84_all_requests, C83_sent_partial).
Print Assumptions all_sent.

(** A session with a collection that has a single percent sign, in a completion that no request asks for. *)
Example C84_all_nonvacuous :
  wf_collection coll_percent /\ some_doc_positive coll_percent /\ some_term_not_in_doc0 coll_percent /\ ~ percent_free coll_percent /\
  (do x <- ac1_build list_containers (files_of coll_percent);
   do (datas, s) <- serve_all list_containers x (query_fuel coll_percent + 1) [(Some (bytes "5%%"), None); (Some (bytes "zz"), None); (Some (bytes "5%%"), Some (bytes "1"))] state1_new;
   Ok datas) =
  Ok [bytes "{""suggestions"":[{""value"":""5%"",""data"":""0""}]}" ++ [10%N]; bytes "{""suggestions"":[""value"":"""",""data"":""""]}" ++ [10%N];
      bytes "{""suggestions"":[{""value"":""5%"",""data"":""0""}]}" ++ [10%N]]%list.
Proof.
  split; [apply wf_collectionb_ok; reflexivity|]. split; [exists 1; cbn; auto|].
  split; [exists 2; split; [cbn; lia|]; intros H; vm_compute in H; repeat (destruct H as [H|H]; try discriminate H); exact H|].
  split; [intros H; apply (H (bytes "5%")); cbn; auto|]. vm_compute. reflexivity.
Qed.
