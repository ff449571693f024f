(** C47 for all four types and every request: no answer over the collection made by filter_and_preprocess.sh has a held-out completion in it. *)
From Coq Require Import Permutation String.
From Verif Require Import Base S_Order S_Vocab S_Parse M_Heap S_Heap M_Iter M_Intersect S_Intersect M_Containers S_Containers M_Auto M_Auto1 S_Collection S_Index M_Auto2 S_Index2 M_Blocked S_Blocked S_Build S_Found.
From Verif Require Import M_Text M_Input S_Text S_Files M_Bits M_Cvec M_Darray M_EfSeq M_Fc M_CompactEf M_Real P_Real P_ListContainers S_Json.
From Verif Require Import P_Heap M_Stored M_Save P_Save P_Stored S_Save T_Auto1 T_Auto2 T_Auto4 T_Input T_Build T_End T_Save.
From Verif Require Import S_Python S_Prep M_Prep P_Prep P_PrepText P_PrepDict P_PrepEnd T_Prep M_Filter S_Filter P_Filter T_Filter T_Loaded T_Real T_PrepTest S_HeldOut P_HeldOut.
Local Open Scope nat_scope.
Local Open Scope list_scope.

(** From the input text through filter_and_preprocess.sh (Python 2), the build tool, the index file and another process, for every session of requests that the index answers
    ([any_request]: C38), every k, every number of completions and words (F23), and also where answers are incomplete (F1, F2, F5-F8). *)
Theorem C47_served_any_partial : forall shuffle n es input, (forall i l, Permutation (shuffle i l) l) -> @valid_input py2 es -> @is_input py2 es input ->
  exists chosen rest, chooses n es chosen /\ others es chosen rest /\
  forall c, rest <> [] -> wf_collection c -> @describes py2 rest c -> small_dict c ->
  exists t, @filter_and_preprocess py2 shuffle n input = Ok (map one_per_line chosen, t) /\
  forall tail heap sort bsort fuel junk fresh m rs, (tail < 2 ^ 64)%N -> (forall A, std_heap (heap A)) -> sorts_by_size ce_ops sort ->
  (forall A key l, Permutation (bsort A key l) l) -> length (t_mapped t) < fuel -> query_fuel c < fuel ->
  (some_doc_positive c -> some_term_not_in_doc0 c -> Forall (any_request (reportable c) (answer_found1 c)) rs ->
   exists file, build_tool ac1_build_d (visit_index1 fresh) true fuel junk t = Ok file /\
     forall old, exists outs, serve1 tail heap sort fresh fuel old file rs = Ok outs /\ length outs = length rs /\ held_out es chosen outs) /\
  (some_kept_doc_positive c -> some_term_not_in_doc0 c -> Forall (any_request2 c) rs ->
   exists file, build_tool ac2_build_d visit_index2 false fuel junk t = Ok file /\
     forall old, exists outs, serve2 tail heap sort fuel old file rs = Ok outs /\ length outs = length rs /\ held_out es chosen outs) /\
  (some_kept_doc_positive c -> Forall (any_request (reportable2 c) (answer_found2 c)) rs ->
   exists file, build_tool ac3_build_d visit_index3 false fuel junk t = Ok file /\
     forall old, exists outs, serve3 tail heap sort fuel old file rs = Ok outs /\ length outs = length rs /\ held_out es chosen outs) /\
  (few_postings c -> some_kept_doc_positive c ->
   exists file bounds, build_tool (ac4_build_d m) visit_index4 false fuel junk t = Ok file /\ blocks_of (length (terms c)) bounds /\
     (Forall (any_request (reportable2 c) (answer_found4 c bounds)) rs ->
      forall old, exists outs, serve4 tail heap sort bsort fuel old file rs = Ok outs /\ length outs = length rs /\ held_out es chosen outs)).
Proof.
  intros shuffle n es input Hsh Hv Hi. destruct (filter_ok shuffle n es input Hsh Hv Hi) as (chosen & rest & filtered & Hc & Ep & Ef & Ho & Hi' & Hv'). exists chosen, rest.
  split; [exact Hc|]. split; [exact Ho|]. intros c Hne W D Hd. destruct (C37_preprocessed_any_partial py2 rest filtered c (Hv' Hne) Hi' W D Hd) as (t & E & H).
  exists t. split; [unfold filter_and_preprocess; rewrite Ep; cbn zeta; rewrite Ef; cbn [bind]; rewrite E; reflexivity|].
  assert (G : forall (R : request -> list (nat * list N) -> Prop) rs outs, (forall r out, R r out -> from_collection c out) -> Forall2 R rs outs -> length outs = length rs /\ held_out es chosen outs).
  { intros R rs outs HR F. split; [symmetry; exact (Forall2_len _ _ _ F)|]. exact (from_rest n es chosen rest c outs Hv Hc Ho D (all_from c R rs outs HR F)). }
  intros tail heap sort bsort fuel junk fresh m rs H1 H2 H3 H4 Hf Hq. destruct (H tail heap sort bsort fuel junk fresh m rs H1 H2 H3 H4 Hf Hq) as (A1 & A2 & A3 & A4). split; [|split; [|split]].
  - intros Hp H0 Hr. destruct (A1 Hp H0 Hr) as (file & Eb & S). exists file. split; [exact Eb|]. intros old. destruct (S old) as (outs & Es & F). exists outs. split; [exact Es|]. exact (G _ _ _ (found1_from c) F).
  - intros Hp H0 Hr. destruct (A2 Hp H0 Hr) as (file & Eb & S). exists file. split; [exact Eb|]. intros old. destruct (S old) as (outs & Es & F). exists outs. split; [exact Es|]. exact (G _ _ _ (found2_from c) F).
  - intros Hp Hr. destruct (A3 Hp Hr) as (file & Eb & S). exists file. split; [exact Eb|]. intros old. destruct (S old) as (outs & Es & F). exists outs. split; [exact Es|]. exact (G _ _ _ (found2_from c) F).
  - intros Hfew Hp. destruct (A4 Hfew Hp) as (file & bounds & Eb & Hb & S). exists file, bounds. split; [exact Eb|]. split; [exact Hb|].
    intros Hr old. destruct (S Hr old) as (outs & Es & F). exists outs. split; [exact Es|]. exact (G _ _ _ (found4_from c bounds) F).
Qed.
Print Assumptions C47_served_any_partial.

(** One completion of each length is chosen, and the collection has the other three; a query and k beyond the earlier theorem. *)
Definition coll_h : collection := {| terms := map bytes ["a"; "b"; "bc"]%string; comps := [[1; 2]; [1; 3]; [2]]%N; docs := [3; 0; 7]; universe := 8 |}.
Example C47_served_any_nonvacuous :
  let rest := [(3, [bytes "a"; bytes "b"]); (0, [bytes "a"; bytes "bc"]); (7, [bytes "b"])]%string in
  let input := T_Input.lines ["3 a b"; "0 a bc"; "7 b"; "1 b de"; "2 bc a de"; "5 c"]%string in
  let rs := [{| rq_conj := true; rq_k := 0; rq_text := [98]%N |}; {| rq_conj := false; rq_k := 100; rq_text := [98]%N |}; conj10 [99]%N] in
  let fresh := {| ef_l := 5; ef_high := {| v_size := 0; v_words := [] |}; ef_d1 := {| d_n := 0; d_blocks := []; d_subs := []; d_over := [] |};
                  ef_low := {| v_size := 0; v_words := [] |}; ef_size := 9 |} in
  wf_collection coll_h /\ @describes py2 rest coll_h /\ small_dict coll_h /\ few_postings coll_h /\ some_doc_positive coll_h /\ some_kept_doc_positive coll_h /\ some_term_not_in_doc0 coll_h /\
  (do (files, t) <- @filter_and_preprocess py2 (fun _ l => rev l) 1 input; do file <- build_tool ac1_build_d (visit_index1 fresh) true 200 7%N t;
   do old <- ac1_build_d (files_of coll_ex); serve1 0 sorting_heap sort_ce fresh 200 old file rs) =
  Ok [[(0, bytes "a bc"); (3, bytes "a b"); (7, bytes "b")]; [(7, bytes "b")]; []]%string.
Proof.
  cbv zeta. split; [apply wf_collectionb_ok; reflexivity|]. split; [|split; [split; [repeat constructor|vm_compute; reflexivity]|split; [reflexivity|split; [exists 3; cbn; auto|split; [exists 3; split; [vm_compute; auto|lia]|split]]]]].
  - described. intros w. split.
    + intros H. cbn in H. destruct H as [<-|[<-|[<-|[]]]]; [exists (bytes "a"%string)|exists (bytes "b"%string)|exists (bytes "bc"%string)]; (split; [|reflexivity]);
        [exists (3, [bytes "a"; bytes "b"]%string)|exists (3, [bytes "a"; bytes "b"]%string)|exists (0, [bytes "a"; bytes "bc"]%string)]; (split; [cbn; tauto|cbn; tauto]).
    + intros (v & (e & He & Hv) & ->). cbn in He. repeat (destruct He as [<-|He]; [cbn in Hv; repeat (destruct Hv as [<-|Hv]; [cbn; tauto|]); destruct Hv|]). destruct He.
  - exists 2. split; [cbn; lia|]. intros H. vm_compute in H. repeat (destruct H as [H|H]; try discriminate H); exact H.
  - vm_compute. reflexivity.
Qed.
