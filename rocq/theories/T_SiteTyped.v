(** C88: on the site, every completion of the input can be found by typing it out. *)
From Coq Require Import Permutation String Sorted.
From Verif Require Import Base S_Order S_Vocab S_Parse M_Heap S_Heap M_Iter M_Intersect S_Intersect M_Containers S_Containers M_Auto M_Auto1 S_Collection S_Index M_Auto2 S_Index2 M_Blocked S_Blocked S_Build P_Build.
From Verif Require Import M_Text M_Input S_Text S_Files P_Files M_Bits M_Cvec M_Darray M_EfSeq M_Fc M_CompactEf M_Real P_Real P_Auto1 P_Auto23 P_ListContainers S_Json M_Web M_Request S_Request S_Session.
From Verif Require Import P_Heap M_Stored M_Save P_Save P_Stored P_Fit3 S_Save T_Auto1 T_Real T_Input T_Build T_End T_Save.
From Verif Require Import S_Python S_Prep M_Prep P_PrepText P_PrepEnd P_Session S_Site P_Site S_SiteTyped P_SiteTyped T_Prep T_Site.
Local Open Scope nat_scope.

(** In a session of requests as in C85 and of completions typed out (which need no condition about the first word), every completion typed out is
    offered, unless there are k better ones; and the response is JSON. Missing: what [servable] excludes. *)
Theorem C88_typed_out_partial : forall (py : python) L es input V, valid_input es -> is_input es input -> servable L es V ->
  exists t bound, preprocess input = Ok t /\
  forall tail heap sort fuel junk fresh, (tail < 2 ^ 64)%N -> (forall A, std_heap (heap A)) -> sorts_by_size ce_ops sort -> bound < fuel ->
  exists file, build_tool ac1_build_d (visit_index1 fresh) true fuel junk t = Ok file /\
    forall old, exists d, load_file (visit_index1 fresh) old file = Ok d /\
    forall rs, Forall (fun r => (exists k ts last, wants r k ts last /\ affordable L k /\ not_first V last) \/ (exists k d ws w, types_out es r k d ws w /\ affordable L k)) rs ->
    exists datas s', serve_all (real_containers tail heap sort) (index1_of tail heap sort d) fuel rs state1_new = Ok (datas, s') /\
      Forall2 (fun r data => forall k d ws w, types_out es r k d ws w -> offers es k d ws w data) rs datas.
Proof.
  intros py L es input V Hv Hi Hs. destruct (C85_input_partial py L es input V Hv Hi Hs) as (t & bound & E & H). exists t, bound. split; [exact E|].
  intros tail heap sort fuel junk fresh H1 H2 H3 Hf. destruct (H tail heap sort fuel junk fresh H1 H2 H3 Hf) as (file & Ef & Ho). exists file. split; [exact Ef|].
  intros old. destruct (Ho old) as (d & Ed & Hr). exists d. split; [exact Ed|]. intros rs Hrs. destruct (Hr rs) as (datas & s' & Es & F).
  { eapply Forall_impl; [|exact Hrs]. intros r [Hw|(k & d' & ws & w & Ht & Hk)]; [exact Hw|]. exists k, (map encoded ws), (encoded w).
    split; [exact (types_wants es Hv r k d' ws w Ht)|]. split; [exact Hk|]. exact (types_first es V r k d' ws w (sv_dictionary _ _ _ Hs) Ht). }
  exists datas, s'. split; [exact Es|]. clear -F Hv Hs. induction F as [|r data rs datas Hc _ IH]; constructor; [|exact IH].
  intros k d ws w Ht. exact (types_offers es Hv r k d ws w data Ht Hc).
Qed.
Print Assumptions C88_typed_out_partial.

(** "b" typed out: with k = 1 a better completion takes its place, with k = 10 it is offered. [servable]: C85_input_nonvacuous. *)
Section Example4.
Let here : python := py3.
Existing Instance here.
Example C88_nonvacuous :
  let fresh := {| ef_l := 0; ef_high := {| v_size := 0; v_words := [] |}; ef_d1 := {| d_n := 0; d_blocks := []; d_subs := []; d_over := [] |};
                  ef_low := {| v_size := 0; v_words := [] |}; ef_size := 0 |} in
  let r1 := (Some (bytes "b"), Some (bytes "1")) in let r2 := (Some (bytes "b"), None) in let r3 := (Some (bytes "bc a de"), None) in
  types_out es_ex r1 1 7 [] (bytes "b") /\ types_out es_ex r2 10 7 [] (bytes "b") /\ types_out es_ex r3 10 2 [bytes "bc"; bytes "a"] (bytes "de") /\
  (do t <- preprocess input_ex;
   do file <- build_tool ac1_build_d (visit_index1 fresh) true 200 7%N t;
   do old <- ac1_build_d (files_of coll_ex);
   do d <- load_file (visit_index1 fresh) old file;
   do (datas, s) <- serve_all (real_containers 0 sorting_heap sort_ce) (index1_of 0 sorting_heap sort_ce d) 200 [r1; r2; r3] state1_new;
   Ok datas) =
  Ok [bytes "{""suggestions"":[{""value"":""a bc"",""data"":""0""}]}" ++ [10%N];
      bytes "{""suggestions"":[{""value"":""a bc"",""data"":""0""},{""value"":""b de"",""data"":""1""},{""value"":""bc a de"",""data"":""2""},{""value"":""a b"",""data"":""3""},{""value"":""b"",""data"":""4""}]}" ++ [10%N];
      bytes "{""suggestions"":[{""value"":""bc a de"",""data"":""0""}]}" ++ [10%N]]%list.
Proof.
  cbv zeta. split.
  { split; [cbn; tauto|]. split; [reflexivity|]. split; [cbn; lia|]. split; [|lia]. apply asks_counts; [|reflexivity]. left. split; [cbn; lia|]. split; [split; [discriminate|repeat constructor; discriminate]|split; [discriminate|reflexivity]]. }
  split; [split; [cbn; tauto|]; split; [reflexivity|]; split; [cbn; lia|]; split; [reflexivity|lia]|].
  split; [split; [cbn; tauto|]; split; [reflexivity|]; split; [cbn; lia|]; split; [reflexivity|lia]|].
  vm_compute. reflexivity.
Qed.
End Example4.
