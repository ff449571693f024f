(** C89: while a word is being typed, the site's suggestions only get fewer, unless there were more than could be listed. *)
From Coq Require Import Permutation String Sorted.
From Verif Require Import Base S_Order S_Vocab S_Parse M_Heap S_Heap M_Iter M_Intersect S_Intersect M_Containers S_Containers M_Auto M_Auto1 S_Collection S_Index M_Auto2 S_Index2 M_Blocked S_Blocked S_Build P_Build.
From Verif Require Import M_Text M_Input S_Text S_Files P_Files M_Bits M_Cvec M_Darray M_EfSeq M_Fc M_CompactEf M_Real P_Real P_Auto1 P_Auto23 P_ListContainers S_Json M_Web M_Request S_Request S_Session.
From Verif Require Import P_Heap M_Stored M_Save P_Save P_Stored P_Fit3 S_Save T_Auto1 T_Real T_Input T_Build T_End T_Save.
From Verif Require Import S_Python S_Prep M_Prep P_PrepText P_PrepEnd P_Session S_Site P_Site S_SiteNarrow P_SiteNarrow T_Prep T_Site.
Local Open Scope nat_scope.

(** In any session as in C85, for any two of its requests, in any order. Missing: as in C85. *)
Theorem C89_narrow_partial : forall (py : python) L es input V, valid_input es -> is_input es input -> servable L es V ->
  exists t bound, preprocess input = Ok t /\
  forall tail heap sort fuel junk fresh, (tail < 2 ^ 64)%N -> (forall A, std_heap (heap A)) -> sorts_by_size ce_ops sort -> bound < fuel ->
  exists file, build_tool ac1_build_d (visit_index1 fresh) true fuel junk t = Ok file /\
    forall old, exists d, load_file (visit_index1 fresh) old file = Ok d /\
    forall rs, Forall (fun r => exists k ts last, wants r k ts last /\ affordable L k /\ not_first V last) rs ->
    exists datas s', serve_all (real_containers tail heap sort) (index1_of tail heap sort d) fuel rs state1_new = Ok (datas, s') /\ length datas = length rs /\
      forall r data r' data', In (r, data) (combine rs datas) -> In (r', data') (combine rs datas) -> types_on r r' ->
      exists k texts texts', counts (snd r) k /\ lists data texts /\ lists data' texts' /\ length texts <= k /\ length texts' <= k /\
        (length texts < k -> length texts' <= length texts /\ incl texts' texts).
Proof.
  intros py L es input V Hv Hi Hs. destruct (C85_input_partial py L es input V Hv Hi Hs) as (t & bound & E & H). exists t, bound. split; [exact E|].
  intros tail heap sort fuel junk fresh H1 H2 H3 Hf. destruct (H tail heap sort fuel junk fresh H1 H2 H3 Hf) as (file & Ef & Ho). exists file. split; [exact Ef|].
  intros old. destruct (Ho old) as (d & Ed & Hr). exists d. split; [exact Ed|]. intros rs Hrs. destruct (Hr rs Hrs) as (datas & s' & Es & F).
  exists datas, s'. split; [exact Es|]. assert (Hl : length datas = length rs) by (clear -F; induction F; cbn; congruence). split; [exact Hl|].
  assert (Hc : forall r data, In (r, data) (combine rs datas) -> completed es r data).
  { clear -F. induction F as [|r0 data0 rs datas Hc _ IH]; intros r data Hin; [destruct Hin|]. destruct Hin as [[= <- <-]|Hin]; [exact Hc|now apply IH]. }
  intros r data r' data' Hin Hin' Ht. exact (narrowed es r r' data data' Ht (Hc _ _ Hin) (Hc _ _ Hin')).
Qed.
Print Assumptions C89_narrow_partial.

(** "b", then "bc": two of five suggestions are left. [servable]: C85_input_nonvacuous. *)
Section Example5.
Let here : python := py3.
Existing Instance here.
Example C89_nonvacuous :
  let fresh := {| ef_l := 0; ef_high := {| v_size := 0; v_words := [] |}; ef_d1 := {| d_n := 0; d_blocks := []; d_subs := []; d_over := [] |};
                  ef_low := {| v_size := 0; v_words := [] |}; ef_size := 0 |} in
  let r := (Some (bytes "b"), None) in let r' := (Some (bytes "bc"), None) in
  types_on r r' /\ wants r 10 [] (bytes "b") /\ wants r' 10 [] (bytes "bc") /\ affordable 110 10 /\
  (let V := [bytes "a"; bytes "b"; bytes "bc"; bytes "de"; [195; 169]%N] in not_first V (bytes "b") /\ not_first V (bytes "bc")) /\
  (do t <- preprocess input_ex;
   do file <- build_tool ac1_build_d (visit_index1 fresh) true 200 7%N t;
   do old <- ac1_build_d (files_of coll_ex);
   do d <- load_file (visit_index1 fresh) old file;
   do (datas, s) <- serve_all (real_containers 0 sorting_heap sort_ce) (index1_of 0 sorting_heap sort_ce d) 200 [r; r'] state1_new;
   Ok datas) =
  Ok [bytes "{""suggestions"":[{""value"":""a bc"",""data"":""0""},{""value"":""b de"",""data"":""1""},{""value"":""bc a de"",""data"":""2""},{""value"":""a b"",""data"":""3""},{""value"":""b"",""data"":""4""}]}" ++ [10%N];
      bytes "{""suggestions"":[{""value"":""a bc"",""data"":""0""},{""value"":""bc a de"",""data"":""1""}]}" ++ [10%N]]%list.
Proof.
  cbv zeta. split; [split; [reflexivity|]; exists (bytes "b"), (bytes "c"); split; [reflexivity|]; split; [reflexivity|]; repeat constructor; discriminate|].
  split; [exists (bytes "b"); split; [reflexivity|]; split; [cbn; lia|]; split; [reflexivity|]; split; [lia|]; exists []; split; [reflexivity|]; split; [repeat constructor; discriminate|constructor]|].
  split; [exists (bytes "bc"); split; [reflexivity|]; split; [cbn; lia|]; split; [reflexivity|]; split; [lia|]; exists []; split; [reflexivity|]; split; [repeat constructor; discriminate|constructor]|].
  split; [unfold affordable; lia|]. split; [split; intros w W [= <- <-] (x & Hx) _; discriminate Hx|]. vm_compute. reflexivity.
Qed.
End Example5.
