(** C84: requests that end the server. *)
From Coq Require Import String.
From Verif Require Import Base S_Order S_Vocab S_Parse M_Trie M_Containers S_Containers M_Auto M_Auto1 S_Collection S_Index S_Found S_Json M_Web M_Request S_Request S_Session.
From Verif Require Import P_Auto1 P_ListContainers P_Web P_Request P_Session T_Auto1 T_Request.
Local Open Scope nat_scope.

(** Every request, whatever its two variables are, and after any others: if there is no number in k, an exception, which nothing catches;
    otherwise it has exactly one answer, which is the response if it can be reported (always, with k from 1 to 15 in C83_short_partial's
    collections), and undefined behaviour if not. *)
Theorem C84_every_request_partial : forall K c,
  containers_ok K -> wf_collection c -> some_doc_positive c -> some_term_not_in_doc0 c -> percent_free c ->
  exists x, ac1_build K (files_of c) = Ok x /\
    forall fuel q kv s, query_fuel c < fuel -> state1_ok s ->
    senseless kv /\ serve K x fuel q kv s = Exn \/
    ~ senseless kv /\ exists out, (forall o, web_answer c (q, kv) o <-> o = out) /\
      (reportable c out -> exists data s', serve K x fuel q kv s = Ok (data, s') /\ responds c (q, kv) data /\ state1_ok s') /\
      (~ reportable c out -> serve K x fuel q kv s = UB).
Proof. exact (fun K c HK Hwf Hp H0 Hpc => every_request K HK c Hwf Hp H0 Hpc). Qed.
Print Assumptions C84_every_request_partial.

(** F63: the request /topcomp?q=b&k=x ends the server; k=-1 asks for 4294967295 suggestions, and k=4294967296 for all (F10). *)
Theorem C84_k_refuted :
  senseless (Some (bytes "x")) /\ http coll_ex (Some (bytes "b")) (Some (bytes "x")) = Exn /\
  counts (Some (bytes "-1")) (N.to_nat 4294967295) /\ counts (Some (bytes "4294967296")) 0.
Proof.
  split.
  - destruct (counts_or_senseless (Some (bytes "x"))) as [(k & H)|H]; [|exact H]. destruct (counts_k _ k H) as (u & E & _). discriminate E.
  - split; [vm_compute; reflexivity|]. split.
    + right. split; [discriminate|]. split; [cbn; lia|]. exists true, 1%N. split; [|now rewrite N_nat_Z].
      exists [], [45%N], [49%N], []. split; [reflexivity|]. split; [constructor|]. split; [auto|].
      split; [split; [discriminate|repeat constructor; discriminate]|]. split; [discriminate|reflexivity].
    + right. split; [discriminate|]. split; [cbn; lia|]. exists false, 4294967296%N. split; [|reflexivity].
      exists [], [], (bytes "4294967296"), []. split; [reflexivity|]. split; [constructor|]. split; [auto|].
      split; [split; [discriminate|repeat constructor; discriminate]|]. split; [discriminate|reflexivity].
Qed.
Print Assumptions C84_k_refuted.

(** Numbers as strtoull reads them. *)
Example C84_nonvacuous :
  counts (Some (bytes " +7, please")) 7 /\ counts (Some []) 10 /\
  http coll_ex (Some (bytes "b")) (Some (bytes " +2, please")) = http coll_ex (Some (bytes "b")) (Some (bytes "2")) /\
  http coll_ex (Some (bytes "b")) (Some (bytes "2")) =
    Ok (bytes "{""suggestions"":[{""value"":""a bc"",""data"":""0""},{""value"":""b de"",""data"":""1""}]}" ++ [10%N])%list.
Proof.
  split.
  - right. split; [discriminate|]. split; [cbn; lia|]. exists false, 7%N. split; [|reflexivity].
    exists [32%N], [43%N], [55%N], (bytes ", please"). split; [reflexivity|]. split; [repeat constructor|]. split; [auto|].
    split; [split; [discriminate|repeat constructor; discriminate]|]. split; [|reflexivity]. intros b r [= <- _] [H _]. vm_compute in H. congruence.
  - split; [left; auto|]. split; vm_compute; reflexivity.
Qed.
