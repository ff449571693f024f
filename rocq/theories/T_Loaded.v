(** C45 and C46 for every query, every k and every size of the collection: an index loaded from a file answers as described in
    S_Found.v and S_Blocked.v, defects included. *)
From Coq Require Import Permutation String ZArith.
From Verif Require Import Base S_Order S_Vocab S_Parse M_Heap S_Heap M_Iter M_Intersect S_Intersect M_Containers S_Containers M_Auto M_Auto1 S_Collection S_Index S_Room S_Found M_Auto2 S_Index2 M_Blocked S_Blocked S_Build.
From Verif Require Import M_Text M_Input S_Text S_Files M_Bits M_Cvec M_Darray M_EfSeq M_Fc M_CompactEf M_Real P_Real P_Auto1 P_Auto23 P_ListContainers P_Heap P_BlockFinal S_Json M_Web.
From Verif Require Import M_Stored M_Save P_Save P_Stored S_Save S_Python S_Prep M_Prep P_PrepEnd.
From Verif Require Import T_Auto1 T_Auto2 T_Auto4 T_Real T_Input T_Build T_End T_Save T_Exact T_Prep.
Local Open Scope nat_scope.

Theorem C45_program1_any_partial : forall tail heap sort c t fuel junk fresh rs,
  (tail < 2 ^ 64)%N -> (forall A, std_heap (heap A)) -> sorts_by_size ce_ops sort ->
  wf_collection c -> small_dict c -> some_doc_positive c -> some_term_not_in_doc0 c ->
  holds_collection c t -> length (t_mapped t) < fuel -> query_fuel c < fuel -> Forall (any_request (reportable c) (answer_found1 c)) rs ->
  exists file, build_tool ac1_build_d (visit_index1 fresh) true fuel junk t = Ok file /\
    forall old, exists outs, serve1 tail heap sort fresh fuel old file rs = Ok outs /\ Forall2 (answer_found1 c) rs outs.
Proof.
  intros tail heap sort c t fuel junk fresh rs H1 H2 H3 Hwf Hd Hp H0 Ht Hf Hq Hr. unfold build_tool, serve1, from_files.
  rewrite (C44_files c t _ fuel junk Hwf Ht Hf). cbn [bind].
  destruct (C37_type1_any_partial _ c (real_containers_ok tail heap sort H1 H2 H3) Hwf Hp H0) as (x & E & H).
  destruct (H fuel rs state1_new Hq state1_new_ok Hr) as (outs & s' & E' & Ha & _).
  rewrite index1_view in E. destruct (ac1_build_d (files_of c)) as [d| | |] eqn:Ed; try discriminate. cbn [bind] in E |- *. injection E as <-.
  exists (save_file (visit_index1 fresh) d). split; [reflexivity|]. intros old. destruct (C45_type1_partial c d fresh Hwf Hd Ed) as (L & _).
  specialize (L old []). rewrite app_nil_r in L. rewrite L. cbn [bind]. rewrite E'. cbn [bind]. eauto.
Qed.

Theorem C45_program2_any_partial : forall tail heap sort c t fuel junk rs,
  (tail < 2 ^ 64)%N -> (forall A, std_heap (heap A)) -> sorts_by_size ce_ops sort ->
  wf_collection c -> small_dict c -> some_kept_doc_positive c -> some_term_not_in_doc0 c ->
  holds_collection c t -> length (t_mapped t) < fuel -> query_fuel c < fuel -> Forall (any_request2 c) rs ->
  exists file, build_tool ac2_build_d visit_index2 false fuel junk t = Ok file /\
    forall old, exists outs, serve2 tail heap sort fuel old file rs = Ok outs /\ Forall2 (answer_found2 c) rs outs.
Proof.
  intros tail heap sort c t fuel junk rs H1 H2 H3 Hwf Hd Hp H0 Ht Hf Hq Hr. unfold build_tool, serve2, from_files.
  rewrite (C44_files c t _ fuel junk Hwf Ht Hf). cbn [bind].
  destruct (C37_type2_any_partial _ c (real_containers_ok tail heap sort H1 H2 H3) Hwf Hp H0) as (x & E & H).
  destruct (H fuel rs state2_new Hq state2_new_ok Hr) as (outs & s' & E' & Ha & _).
  rewrite index2_view in E. destruct (ac2_build_d (files_of c)) as [d| | |] eqn:Ed; try discriminate. cbn [bind] in E |- *. injection E as <-.
  exists (save_file visit_index2 d). split; [reflexivity|]. intros old. destruct (C45_type2_partial c d Hwf Hd Ed) as (L & _).
  specialize (L old []). rewrite app_nil_r in L. rewrite L. cbn [bind]. rewrite E'. cbn [bind]. eauto.
Qed.

Theorem C45_program3_any_partial : forall tail heap sort c t fuel junk rs,
  (tail < 2 ^ 64)%N -> (forall A, std_heap (heap A)) -> sorts_by_size ce_ops sort ->
  wf_collection c -> small_dict c -> some_kept_doc_positive c ->
  holds_collection c t -> length (t_mapped t) < fuel -> query_fuel c < fuel -> Forall (any_request (reportable2 c) (answer_found2 c)) rs ->
  exists file, build_tool ac3_build_d visit_index3 false fuel junk t = Ok file /\
    forall old, exists outs, serve3 tail heap sort fuel old file rs = Ok outs /\ Forall2 (answer_found2 c) rs outs.
Proof.
  intros tail heap sort c t fuel junk rs H1 H2 H3 Hwf Hd Hp Ht Hf Hq Hr. unfold build_tool, serve3, from_files.
  rewrite (C44_files c t _ fuel junk Hwf Ht Hf). cbn [bind].
  destruct (C37_type3_any_partial _ c (real_containers_ok tail heap sort H1 H2 H3) Hwf Hp) as (x & E & H).
  destruct (H fuel rs state2_new Hq state2_new_ok Hr) as (outs & s' & E' & Ha & _).
  rewrite index3_view in E. destruct (ac3_build_d (files_of c)) as [d| | |] eqn:Ed; try discriminate. cbn [bind] in E |- *. injection E as <-.
  exists (save_file visit_index3 d). split; [reflexivity|]. intros old. destruct (C45_type3_partial c d Hwf Hd Ed) as (L & _).
  specialize (L old []). rewrite app_nil_r in L. rewrite L. cbn [bind]. rewrite E'. cbn [bind]. eauto.
Qed.

(** Type 4: [xd_blocks (d4_inv d)] are the boundaries of the blocks. *)
Theorem C45_program4_any_partial : forall tail heap sort bsort c m t fuel junk rs,
  (tail < 2 ^ 64)%N -> (forall A, std_heap (heap A)) -> sorts_by_size ce_ops sort -> (forall A key l, Permutation (bsort A key l) l) ->
  wf_collection c -> small_dict c -> few_postings c -> some_kept_doc_positive c ->
  holds_collection c t -> length (t_mapped t) < fuel -> query_fuel c < fuel ->
  exists d, from_files (ac4_build_d m) false fuel junk t = Ok d /\
  build_tool (ac4_build_d m) visit_index4 false fuel junk t = Ok (save_file visit_index4 d) /\
  let bounds := xd_blocks (d4_inv d) in blocks_of (length (terms c)) bounds /\
  (Forall (any_request (reportable2 c) (answer_found4 c bounds)) rs ->
   forall old, exists outs, serve4 tail heap sort bsort fuel old (save_file visit_index4 d) rs = Ok outs /\ Forall2 (answer_found4 c bounds) rs outs).
Proof.
  intros tail heap sort bsort c m t fuel junk rs H1 H2 H3 H4 Hwf Hd Hfew Hp Ht Hf Hq. unfold build_tool, serve4, from_files.
  rewrite (C44_files c t _ fuel junk Hwf Ht Hf). cbn [bind].
  pose proof (real_bcontainers_ok tail heap sort H1 H2 H3 bsort H4) as HK.
  destruct (C37_type4_any_partial _ c m HK Hwf Hfew Hp) as (x & E & H). destruct (C05_conjunctive_topk_exact_partial _ c m HK Hwf Hfew Hp) as (x' & E' & Hb & _).
  rewrite E in E'. injection E' as <-.
  rewrite index4_view in E. destruct (ac4_build_d m (files_of c)) as [d| | |] eqn:Ed; try discriminate. cbn [bind] in E |- *. injection E as <-.
  exists d. split; [reflexivity|]. split; [reflexivity|]. split; [exact Hb|]. intros Hr old. destruct (H fuel rs state2_new Hq state2_new_ok Hr) as (outs & s' & E' & Ha & _).
  destruct (C45_type4_partial c m d Hwf Hd Hfew Ed) as (L & _). specialize (L old []). rewrite app_nil_r in L. rewrite L. cbn [bind]. rewrite E'. cbn [bind]. eauto.
Qed.

(** The web server, for every query and every k it accepts. *)
Theorem C39_topcomp_loaded_exact_partial : forall tail heap sort c t fuel junk fresh,
  (tail < 2 ^ 64)%N -> (forall A, std_heap (heap A)) -> sorts_by_size ce_ops sort ->
  wf_collection c -> small_dict c -> some_doc_positive c -> some_term_not_in_doc0 c ->
  holds_collection c t -> length (t_mapped t) < fuel -> query_fuel c < fuel ->
  exists file, build_tool ac1_build_d (visit_index1 fresh) true fuel junk t = Ok file /\
    forall old, exists d, load_file (visit_index1 fresh) old file = Ok d /\
    let K := real_containers tail heap sort in let x := index1_of tail heap sort d in
    forall k q kvar ts last s,
    (kvar = [] /\ k = 10 \/ decimal kvar k) -> (N.of_nat k < 4294967296)%N -> query_split q ts last -> state1_ok s ->
    exists out, topk_answer c (conj_by c (found c last) ts) (limit c k) out /\
      (reportable c out -> out <> [] -> Forall (fun r => ~ In 37%N (snd r)) out ->
       exists data v s', topcomp K x fuel q kvar s = Ok (data, s') /\ is_json data v /\ suggestions (map snd out) v /\ state1_ok s') /\
      (~ reportable c out -> topcomp K x fuel q kvar s = UB).
Proof.
  intros tail heap sort c t fuel junk fresh H1 H2 H3 Hwf Hd Hp H0 Ht Hf Hq. unfold build_tool, from_files.
  rewrite (C44_files c t _ fuel junk Hwf Ht Hf). cbn [bind].
  destruct (C39_topcomp_exact_partial _ c (real_containers_ok tail heap sort H1 H2 H3) Hwf Hp H0) as (x & E & H).
  rewrite index1_view in E. destruct (ac1_build_d (files_of c)) as [d| | |] eqn:Ed; try discriminate. cbn [bind] in E |- *. injection E as <-.
  exists (save_file (visit_index1 fresh) d). split; [reflexivity|]. intros old. destruct (C45_type1_partial c d fresh Hwf Hd Ed) as (L & _).
  specialize (L old []). rewrite app_nil_r in L. exists d. split; [exact L|]. intros k q kvar ts last s. exact (H fuel k q kvar ts last s Hq).
Qed.

(** From the input text: preprocess.sh, the build tool, the index file, another process. *)
Theorem C37_preprocessed_any_partial : forall (py : python) es input c, valid_input es -> is_input es input -> wf_collection c -> describes es c -> small_dict c ->
  exists t, preprocess input = Ok t /\
  forall tail heap sort bsort fuel junk fresh m rs, (tail < 2 ^ 64)%N -> (forall A, std_heap (heap A)) -> sorts_by_size ce_ops sort ->
  (forall A key l, Permutation (bsort A key l) l) -> length (t_mapped t) < fuel -> query_fuel c < fuel ->
  (some_doc_positive c -> some_term_not_in_doc0 c -> Forall (any_request (reportable c) (answer_found1 c)) rs ->
   exists file, build_tool ac1_build_d (visit_index1 fresh) true fuel junk t = Ok file /\
     forall old, exists outs, serve1 tail heap sort fresh fuel old file rs = Ok outs /\ Forall2 (answer_found1 c) rs outs) /\
  (some_kept_doc_positive c -> some_term_not_in_doc0 c -> Forall (any_request2 c) rs ->
   exists file, build_tool ac2_build_d visit_index2 false fuel junk t = Ok file /\
     forall old, exists outs, serve2 tail heap sort fuel old file rs = Ok outs /\ Forall2 (answer_found2 c) rs outs) /\
  (some_kept_doc_positive c -> Forall (any_request (reportable2 c) (answer_found2 c)) rs ->
   exists file, build_tool ac3_build_d visit_index3 false fuel junk t = Ok file /\
     forall old, exists outs, serve3 tail heap sort fuel old file rs = Ok outs /\ Forall2 (answer_found2 c) rs outs) /\
  (few_postings c -> some_kept_doc_positive c ->
   exists file bounds, build_tool (ac4_build_d m) visit_index4 false fuel junk t = Ok file /\ blocks_of (length (terms c)) bounds /\
     (Forall (any_request (reportable2 c) (answer_found4 c bounds)) rs ->
      forall old, exists outs, serve4 tail heap sort bsort fuel old file rs = Ok outs /\ Forall2 (answer_found4 c bounds) rs outs)).
Proof.
  intros py es input c Hv Hi W D Hd. destruct (preprocess_ok es input Hv Hi) as (t & c' & E & W' & D' & H & _). assert (c' = c) as -> by exact (describes_unique es c' c W' W D' D).
  exists t. split; [exact E|]. intros tail heap sort bsort fuel junk fresh m rs H1 H2 H3 H4 Hf Hq. split; [|split; [|split]].
  - intros Hp H0 Hr. exact (C45_program1_any_partial tail heap sort c t fuel junk fresh rs H1 H2 H3 W Hd Hp H0 H Hf Hq Hr).
  - intros Hp H0 Hr. exact (C45_program2_any_partial tail heap sort c t fuel junk rs H1 H2 H3 W Hd Hp H0 H Hf Hq Hr).
  - intros Hp Hr. exact (C45_program3_any_partial tail heap sort c t fuel junk rs H1 H2 H3 W Hd Hp H Hf Hq Hr).
  - intros Hfew Hp. destruct (C45_program4_any_partial tail heap sort bsort c m t fuel junk rs H1 H2 H3 H4 W Hd Hfew Hp H Hf Hq) as (d & _ & Eb & Hb & Hr).
    exists (save_file visit_index4 d), (xd_blocks (d4_inv d)). auto.
Qed.

Definition all_loaded := (C45_program1_any_partial, C45_program2_any_partial, C45_program3_any_partial, C45_program4_any_partial,
  C39_topcomp_loaded_exact_partial, C37_preprocessed_any_partial).
Print Assumptions all_loaded.

(** Requests beyond the earlier theorems: k = 0, k = 100, and a query with a NUL byte, on the files of [coll_ex]. *)
Example C45_any_nonvacuous :
  let rs := [{| rq_conj := true; rq_k := 0; rq_text := [98]%N |}; {| rq_conj := false; rq_k := 100; rq_text := [98]%N |}; conj10 [97; 0]%N] in
  let fresh := {| ef_l := 5; ef_high := {| v_size := 0; v_words := [] |}; ef_d1 := {| d_n := 0; d_blocks := []; d_subs := []; d_over := [] |};
                  ef_low := {| v_size := 0; v_words := [] |}; ef_size := 9 |} in
  let expected := [[(0, bytes "a bc"); (1, bytes "b de"); (2, bytes "bc a de"); (3, bytes "a b"); (7, bytes "b")]; [(1, bytes "b de"); (2, bytes "bc a de"); (7, bytes "b")]; []] in
  wf_collection coll_ex /\ small_dict coll_ex /\ few_postings coll_ex /\ some_kept_doc_positive coll_ex /\ holds_collection coll_ex texts_ex /\
  [(do file <- build_tool ac1_build_d (visit_index1 fresh) true 200 7%N texts_ex; do old <- ac1_build_d (files_of coll_ex); serve1 0 sorting_heap sort_ce fresh 200 old file rs);
   (do file <- build_tool ac2_build_d visit_index2 false 200 7%N texts_ex; do old <- ac2_build_d (files_of coll_ex); serve2 0 sorting_heap sort_ce 200 old file rs);
   (do file <- build_tool ac3_build_d visit_index3 false 200 7%N texts_ex; do old <- ac3_build_d (files_of coll_ex); serve3 0 sorting_heap sort_ce 200 old file rs)] =
  repeat (Ok expected) 3.
Proof.
  split; [exact (proj1 coll_ex_good)|]. split; [exact small_dict_ex|]. split; [reflexivity|]. split; [exists 3; split; [vm_compute; auto|lia]|].
  split; [exact (proj1 (proj2 C44_nonvacuous))|]. vm_compute. reflexivity.
Qed.
