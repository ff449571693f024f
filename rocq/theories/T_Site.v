(** C85: the whole site. *)
From Coq Require Import Permutation String Sorted.
From Verif Require Import Base S_Order S_Vocab S_Parse M_Heap S_Heap M_Iter M_Intersect S_Intersect M_Containers S_Containers M_Auto M_Auto1 S_Collection S_Index M_Auto2 S_Index2 M_Blocked S_Blocked S_Build P_Build.
From Verif Require Import M_Text M_Input S_Text S_Files P_Files M_Bits M_Cvec M_Darray M_EfSeq M_Fc M_CompactEf M_Real P_Real P_Auto1 P_Auto23 P_ListContainers S_Json M_Web M_Request S_Request S_Session.
From Verif Require Import P_Heap M_Stored M_Save P_Save P_Stored P_Fit3 S_Save T_Auto1 T_Real T_Input T_Build T_End T_Save.
From Verif Require Import S_Python S_Prep M_Prep P_PrepText P_PrepEnd P_Session S_Site P_Site T_Prep.
Local Open Scope nat_scope.

(** The input text, in any layout and with any order of its lines the scripts accept, is turned into files by the scripts; the build tool
    makes an index file of them; the server loads it into any object and answers any sequence of requests: each response lists the best
    completions of the input that match the request. All containers are the ones of the program. Missing: see C83 (percent signs, more or
    longer suggestions than [affordable]), F1 ([first_term_ok]), F23 ([sizes_ok]), F61, requests without suggestions (F22), and what C46 excludes. *)
Theorem C85_site_partial : forall (py : python) L es input c, valid_input es -> is_input es input -> wf_collection c -> describes es c ->
  modest L es -> sizes_ok c -> small_dict c -> some_doc_positive c -> some_term_not_in_doc0 c ->
  exists t, preprocess input = Ok t /\
  forall tail heap sort fuel junk fresh, (tail < 2 ^ 64)%N -> (forall A, std_heap (heap A)) -> sorts_by_size ce_ops sort ->
  length (t_mapped t) < fuel -> query_fuel c < fuel ->
  exists file, build_tool ac1_build_d (visit_index1 fresh) true fuel junk t = Ok file /\
    forall old, exists d, load_file (visit_index1 fresh) old file = Ok d /\
    forall rs, Forall (fun r => exists k ts last, wants r k ts last /\ affordable L k /\ first_term_ok c last) rs ->
    exists datas s', serve_all (real_containers tail heap sort) (index1_of tail heap sort d) fuel rs state1_new = Ok (datas, s') /\
      Forall2 (completed es) rs datas.
Proof.
  intros py L es input c Hv Hi W D Hm Hs Hd Hp H0. destruct (preprocess_ok es input Hv Hi) as (t & c' & E & W' & D' & H & _).
  assert (c' = c) as -> by exact (describes_unique es c' c W' W D' D).
  exists t. split; [exact E|]. intros tail heap sort fuel junk fresh H1 H2 H3 Hf Hq.
  destruct (session_served _ (real_containers_ok tail heap sort H1 H2 H3) c W Hp H0 (modest_percent es c D L Hm)) as (x & Ex & Hx).
  unfold build_tool, from_files. rewrite (C44_files c t _ fuel junk W H Hf). cbn [bind].
  rewrite index1_view in Ex. destruct (ac1_build_d (files_of c)) as [d| | |] eqn:Ed; try discriminate. cbn [bind] in Ex |- *. injection Ex as <-.
  exists (save_file (visit_index1 fresh) d). split; [reflexivity|]. intros old. destruct (C45_type1_partial c d fresh W Hd Ed) as (Lo & _).
  specialize (Lo old []). rewrite app_nil_r in Lo. exists d. split; [exact Lo|]. intros rs Hrs.
  destruct (Hx fuel rs state1_new Hq) as (datas & s' & Es & Hr & _); [|exact state1_new_ok|].
  { eapply Forall_impl; [|exact Hrs]. intros r (k & ts & last & Hw & Hk & _). exact (wants_request es c W D L r k ts last Hs Hm Hw Hk). }
  exists datas, s'. split; [exact Es|]. clear Es. revert datas Hr. induction Hrs as [|r rs (k & ts & last & Hw & _ & Hft) _ IH]; intros datas Hr; inversion Hr; subst; constructor.
  - eapply responds_completed; eassumption.
  - now apply IH.
Qed.
(** The same about the input text alone: no collection, and some bound on the time ([fuel]). *)
Theorem C85_input_partial : forall (py : python) L es input V, valid_input es -> is_input es input -> servable L es V ->
  exists t bound, preprocess input = Ok t /\
  forall tail heap sort fuel junk fresh, (tail < 2 ^ 64)%N -> (forall A, std_heap (heap A)) -> sorts_by_size ce_ops sort -> bound < fuel ->
  exists file, build_tool ac1_build_d (visit_index1 fresh) true fuel junk t = Ok file /\
    forall old, exists d, load_file (visit_index1 fresh) old file = Ok d /\
    forall rs, Forall (fun r => exists k ts last, wants r k ts last /\ affordable L k /\ not_first V last) rs ->
    exists datas s', serve_all (real_containers tail heap sort) (index1_of tail heap sort d) fuel rs state1_new = Ok (datas, s') /\
      Forall2 (completed es) rs datas.
Proof.
  intros py L es input V Hv Hi Hs. destruct (preprocess_ok es input Hv Hi) as (t & c & E & W & D & _). destruct (servable_collection es c W D L V Hv Hs) as (S1 & S2 & S3 & S4).
  destruct (C85_site_partial py L es input c Hv Hi W D (sv_modest _ _ _ Hs) S1 S2 S3 S4) as (t' & E' & H). assert (t' = t) as -> by congruence.
  exists t, (Nat.max (length (t_mapped t)) (query_fuel c)). split; [exact E|]. intros tail heap sort fuel junk fresh H1 H2 H3 Hf.
  destruct (H tail heap sort fuel junk fresh H1 H2 H3) as (file & Ef & Ho); [lia|lia|]. exists file. split; [exact Ef|]. intros old.
  destruct (Ho old) as (d & Ed & Hr). exists d. split; [exact Ed|]. intros rs Hrs. apply Hr. eapply Forall_impl; [|exact Hrs].
  intros r (k & ts & last & Hw & Hk & Hn). exists k, ts, last. split; [exact Hw|]. split; [exact Hk|]. exact (not_first_ok es c D V last (sv_dictionary _ _ _ Hs) Hn).
Qed.
(** Up to 8 suggestions are affordable with every valid input, and up to 15 if no completion has more than 110 bytes. *)
Theorem C85_affordable : forall (py : python) es, valid_input es ->
  (forall d ws, In (d, ws) es -> length (encoded (join ws)) <= 190) /\
  forall k, 1 <= k -> (k <= 8 -> affordable 190 k) /\ (k <= 10 -> affordable 166 k) /\ (k <= 15 -> affordable 110 k).
Proof. intros py es Hv. split; [intros d ws H; exact (valid_lengths es d ws Hv H)|]. intros k Hk. unfold affordable. lia. Qed.
Definition all_site := (C85_site_partial, C85_input_partial, C85_affordable).
Print Assumptions all_site.

(** From the text in two requests. The other hypotheses: C46_input_ex, C46_stats_nonvacuous. *)
Section Example3.
Let here : python := py3.
Existing Instance here.
Example C85_nonvacuous :
  let fresh := {| ef_l := 0; ef_high := {| v_size := 0; v_words := [] |}; ef_d1 := {| d_n := 0; d_blocks := []; d_subs := []; d_over := [] |};
                  ef_low := {| v_size := 0; v_words := [] |}; ef_size := 0 |} in
  let r1 := (Some (bytes "bc d"), Some (bytes "2")) in let r2 := (Some [195; 169]%N, None) in
  valid_input es_ex /\ is_input es_ex input_ex /\ modest 110 es_ex /\
  (exists c, wf_collection c /\ describes es_ex c /\ sizes_ok c /\ small_dict c /\ some_doc_positive c /\ some_term_not_in_doc0 c /\ first_term_ok c (bytes "d") /\ first_term_ok c [195; 169]%N) /\
  wants r1 2 [bytes "bc"] (bytes "d") /\ wants r2 10 [] [195; 169]%N /\
  (do t <- preprocess input_ex;
   do file <- build_tool ac1_build_d (visit_index1 fresh) true 200 7%N t;
   do old <- ac1_build_d (files_of coll_ex);
   do d <- load_file (visit_index1 fresh) old file;
   do (datas, s) <- serve_all (real_containers 0 sorting_heap sort_ce) (index1_of 0 sorting_heap sort_ce d) 200 [r1; r2] state1_new;
   Ok datas) =
  Ok [bytes "{""suggestions"":[{""value"":""bc a de"",""data"":""0""}]}" ++ [10%N];
      bytes "{""suggestions"":[{""value"":""" ++ [195; 169]%N ++ bytes """,""data"":""0""}]}" ++ [10%N]]%list.
Proof.
  cbv zeta. split; [exact (proj1 C46_input_ex)|]. split; [exact (proj2 C46_input_ex)|]. split.
  { intros d ws H. cbn [es_ex In] in H. repeat (destruct H as [[= <- <-]|H]; [split; [vm_compute; lia|vm_compute; intros Hx; repeat (destruct Hx as [Hx|Hx]; [discriminate Hx|]); exact Hx]|]). destruct H. }
  split.
  { destruct C46_input_ex as (Hv & ids & Hids & Ht). exists (P_Prep.coll es_ex ids). split; [apply (P_Prep.coll_wf es_ex ids input_ex Hv Hids)|]. split; [exact (P_Prep.coll_describes es_ex ids Hv Hids)|].
    assert (Hl : length ids = 6) by (clear -Hids; apply (Forall2_ind (fun l l2 => length l = length l2)) in Hids; [exact Hids|reflexivity|intros; cbn; lia]).
    do 6 (destruct ids as [|? ids]; [discriminate|]). destruct ids; [|discriminate].
    split; [vm_compute; discriminate|]. split; [split; [vm_compute; repeat constructor|vm_compute; reflexivity]|]. split; [exists 3; split; [vm_compute; tauto|lia]|].
    split; [exists 2; split; [vm_compute; lia|]; intros H; vm_compute in H; repeat (destruct H as [H|H]; try discriminate H); exact H|]. split; intros _ (x & Hx); vm_compute in Hx; discriminate Hx. }
  split.
  { exists (bytes "bc d"). split; [reflexivity|]. split; [cbn; lia|]. split; [apply asks_counts; [|reflexivity]; left; split; [cbn; lia|]; split; [split; [discriminate|repeat constructor; discriminate]|split; [discriminate|reflexivity]]|].
    split; [lia|]. exists (bytes "bc "). split; [reflexivity|]. split; [repeat constructor; discriminate|]. apply (words_word (bytes "bc") [] []); [discriminate|repeat constructor; discriminate|constructor]. }
  split.
  { exists [195; 169]%N. split; [reflexivity|]. split; [cbn; lia|]. split; [reflexivity|]. split; [lia|]. exists []. split; [reflexivity|]. split; [repeat constructor; discriminate|constructor]. }
  vm_compute. reflexivity.
Qed.
Example C85_input_nonvacuous : let V := [bytes "a"; bytes "b"; bytes "bc"; bytes "de"; [195; 169]%N] in
  servable 110 es_ex V /\ not_first V (bytes "d") /\ not_first V [195; 169]%N.
Proof.
  cbv zeta. split; [|split; intros w W [= <- <-] (x & Hx) _; discriminate Hx]. constructor.
  - split.
    + repeat split; apply P_PrepDict.str_ltb_spec; vm_compute; reflexivity.
    + intros w. split.
      * intros H. cbn [In] in H. destruct H as [<-|[<-|[<-|[<-|[<-|[]]]]]].
        -- exists (bytes "a"). split; [exists (3, [bytes "a"; bytes "b"]); split; [now left|now left]|reflexivity].
        -- exists (bytes "b"). split; [exists (3, [bytes "a"; bytes "b"]); split; [now left|right; now left]|reflexivity].
        -- exists (bytes "bc"). split; [exists (0, [bytes "a"; bytes "bc"]); split; [right; now left|right; now left]|reflexivity].
        -- exists (bytes "de"). split; [exists (1, [bytes "b"; bytes "de"]); split; [cbn; tauto|right; now left]|reflexivity].
        -- exists [233%N]. split; [exists (5, [[233%N]]); split; [cbn; tauto|now left]|reflexivity].
      * intros (v & (e & He & Hw) & ->). cbn [es_ex In] in He. repeat (destruct He as [<-|He]; [cbn [snd In] in Hw; repeat (destruct Hw as [<-|Hw]; [vm_compute; tauto|]); destruct Hw|]). destruct He.
  - exact (proj1 (proj2 (proj2 C85_nonvacuous))).
  - discriminate.
  - reflexivity.
  - exists 3, [bytes "a"; bytes "b"]. split; [now left|lia].
  - exists (bytes "de"). split; [cbn; tauto|]. intros ws H Hw. cbn [es_ex In] in H. repeat (destruct H as [H|H]; [first [discriminate H|injection H as <-; vm_compute in Hw; repeat (destruct Hw as [Hw|Hw]; [discriminate Hw|]); exact Hw]|]). destruct H.
Qed.
End Example3.
