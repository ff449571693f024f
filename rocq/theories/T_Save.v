(** C45: an index saved to a file and loaded by another process is the index that was built, and answers as it would. *)
From Coq Require Import Permutation String ZArith.
From Verif Require Import Base S_Order S_Vocab S_Parse M_Heap S_Heap M_Iter M_Intersect S_Intersect M_Containers S_Containers M_Auto M_Auto1 S_Collection S_Index M_Auto2 S_Index2 M_Blocked S_Blocked S_Build P_Build.
From Verif Require Import M_Text M_Input S_Text S_Files P_Files M_Bits M_Cvec M_Darray M_EfSeq M_Fc M_CompactEf M_Real P_Real P_Auto1 P_Auto23 P_ListContainers P_Blocked P_BlockFinal S_Json M_Web.
From Verif Require Import P_Heap M_Stored M_Save P_Save P_Stored P_Fit3 S_Save.
From Verif Require Import T_Auto1 T_Auto2 T_Auto4 T_Web T_Real T_Input T_Build T_End.
Local Open Scope nat_scope.

(** Loading gives back the object that was saved, whatever is in the object loaded into and whatever follows in the file. *)
Definition loads_back {A} (c : codec A) (x : A) : Prop :=
  forall old rest, load_file c old (save_file c x ++ rest) = Ok x.

Lemma good_loads {A} (c : codec A) (P : A -> Prop) x : P_Save.good c P -> P x -> loads_back c x.
Proof. intros G H old rest. unfold load_file, save_file. rewrite (G x H old rest). reflexivity. Qed.

(** Every index that can be built is written and read back, and what is read back is, for a process with its own memory contents
    ([tail]), heap functions and sort functions, the index it would have built itself. *)
Theorem C45_type1_partial : forall c d fresh, wf_collection c -> small_dict c -> ac1_build_d (files_of c) = Ok d ->
  loads_back (visit_index1 fresh) d /\
  forall tail heap sort, ac1_build (real_containers tail heap sort) (files_of c) = Ok (index1_of tail heap sort d).
Proof.
  intros c d fresh Hwf Hd E. split; [exact (good_loads _ _ _ (index1_good fresh) (index1_fit c Hwf Hd d E))|].
  intros tail heap sort. rewrite index1_view, E. reflexivity.
Qed.

Theorem C45_type2_partial : forall c d, wf_collection c -> small_dict c -> ac2_build_d (files_of c) = Ok d ->
  loads_back visit_index2 d /\
  forall tail heap sort, ac2_build (real_containers tail heap sort) (files_of c) = Ok (index2_of tail heap sort d).
Proof.
  intros c d Hwf Hd E. split; [exact (good_loads _ _ _ index2_good (index2_fit c Hwf Hd d E))|].
  intros tail heap sort. rewrite index2_view, E. reflexivity.
Qed.

Theorem C45_type3_partial : forall c d, wf_collection c -> small_dict c -> ac3_build_d (files_of c) = Ok d ->
  loads_back visit_index3 d /\
  forall tail heap sort, ac3_build (real_containers tail heap sort) (files_of c) = Ok (index3_of tail heap sort d).
Proof.
  intros c d Hwf Hd E. split; [exact (good_loads _ _ _ index3_good (index3_fit c Hwf Hd d E))|].
  intros tail heap sort. rewrite index3_view, E. reflexivity.
Qed.

Theorem C45_type4_partial : forall c m d, wf_collection c -> small_dict c -> few_postings c -> ac4_build_d m (files_of c) = Ok d ->
  loads_back visit_index4 d /\
  forall tail heap sort bsort, ac4_build (real_bcontainers tail heap sort bsort) m (files_of c) = Ok (index4_of tail heap sort bsort d).
Proof.
  intros c m d Hwf Hd Hf E. split; [exact (good_loads _ _ _ index4_good (index4_fit c Hwf Hd m d Hf E))|].
  intros tail heap sort bsort. rewrite index4_view, E. reflexivity.
Qed.

(** ** From the input files through the index file to the answers *)
(** src/build.cpp:9-29: read the input files, build, save. *)
Definition build_tool {A} (build : files -> res A) (c : codec A) (trie : bool) (fuel : nat) (junk : N) (t : texts) : res (list N) :=
  do d <- from_files build trie fuel junk t; Ok (save_file c d).
(** Another process: load into a new object ([old]) and answer requests (src/web_server.cpp:97, benchmark/benchmark_effectiveness.cpp and others). *)
Definition serve1 tail heap sort fresh (fuel : nat) (old : index1_d) (file : list N) (rs : list request) :=
  do d <- load_file (visit_index1 fresh) old file;
  do (outs, s) <- session (ac1_request (real_containers tail heap sort) (index1_of tail heap sort d) fuel) (fun s => pool_results (s1_pool s)) rs state1_new; Ok outs.
Definition serve2 tail heap sort (fuel : nat) (old : index2_d) (file : list N) (rs : list request) :=
  do d <- load_file visit_index2 old file;
  do (outs, s) <- session (ac2_request (real_containers tail heap sort) (index2_of tail heap sort d) fuel) (fun s => pool_results (s2_pool s)) rs state2_new; Ok outs.
Definition serve3 tail heap sort (fuel : nat) (old : index3_d) (file : list N) (rs : list request) :=
  do d <- load_file visit_index3 old file;
  do (outs, s) <- session (ac3_request (real_containers tail heap sort) (index3_of tail heap sort d) fuel) (fun s => pool_results (s2_pool s)) rs state2_new; Ok outs.
Definition serve4 tail heap sort bsort (fuel : nat) (old : index4_d) (file : list N) (rs : list request) :=
  do d <- load_file visit_index4 old file;
  do (outs, s) <- session (ac4_request (real_bcontainers tail heap sort bsort) (index4_of tail heap sort bsort d) fuel) (fun s => pool_results (s2_pool s)) rs state2_new; Ok outs.

Theorem C45_program1_partial : forall tail heap sort c t fuel junk fresh rs,
  (tail < 2 ^ 64)%N -> (forall A, std_heap (heap A)) -> sorts_by_size ce_ops sort ->
  wf_collection c -> sizes_ok c -> small_dict c -> some_doc_positive c -> some_term_not_in_doc0 c ->
  holds_collection c t -> length (t_mapped t) < fuel -> query_fuel c < fuel -> Forall (request_ok c) rs ->
  exists file, build_tool ac1_build_d (visit_index1 fresh) true fuel junk t = Ok file /\
    forall old, exists outs, serve1 tail heap sort fresh fuel old file rs = Ok outs /\ Forall2 (answer_to c) rs outs.
Proof.
  intros tail heap sort c t fuel junk fresh rs H1 H2 H3 Hwf Hs Hd Hp H0 Ht Hf Hq Hr. unfold build_tool, serve1, from_files.
  rewrite (C44_files c t _ fuel junk Hwf Ht Hf). cbn [bind].
  destruct (C37_type1_session_bits_partial tail heap sort c H1 H2 H3 Hwf Hs Hp H0) as (x & E & Hok & H).
  destruct (H fuel rs state1_new Hq Hok Hr) as (outs & s' & E' & Ha & _).
  rewrite index1_view in E. destruct (ac1_build_d (files_of c)) as [d| | |] eqn:Ed; try discriminate. cbn [bind] in E |- *. injection E as <-.
  exists (save_file (visit_index1 fresh) d). split; [reflexivity|]. intros old. destruct (C45_type1_partial c d fresh Hwf Hd Ed) as (L & _).
  specialize (L old []). rewrite app_nil_r in L. rewrite L. cbn [bind]. rewrite E'. cbn [bind]. eauto.
Qed.

Theorem C45_program2_partial : forall tail heap sort c t fuel junk rs,
  (tail < 2 ^ 64)%N -> (forall A, std_heap (heap A)) -> sorts_by_size ce_ops sort ->
  wf_collection c -> sizes_ok2 c -> small_dict c -> some_doc_positive c -> some_term_not_in_doc0 c ->
  holds_collection c t -> length (t_mapped t) < fuel -> query_fuel c < fuel -> Forall (request_ok2 c) rs ->
  exists file, build_tool ac2_build_d visit_index2 false fuel junk t = Ok file /\
    forall old, exists outs, serve2 tail heap sort fuel old file rs = Ok outs /\ Forall2 (answer_to c) rs outs.
Proof.
  intros tail heap sort c t fuel junk rs H1 H2 H3 Hwf Hs Hd Hp H0 Ht Hf Hq Hr. unfold build_tool, serve2, from_files.
  rewrite (C44_files c t _ fuel junk Hwf Ht Hf). cbn [bind].
  destruct (C37_type2_session_bits_partial tail heap sort c H1 H2 H3 Hwf Hs Hp H0) as (x & E & Hok & H).
  destruct (H fuel rs state2_new Hq Hok Hr) as (outs & s' & E' & Ha & _).
  rewrite index2_view in E. destruct (ac2_build_d (files_of c)) as [d| | |] eqn:Ed; try discriminate. cbn [bind] in E |- *. injection E as <-.
  exists (save_file visit_index2 d). split; [reflexivity|]. intros old. destruct (C45_type2_partial c d Hwf Hd Ed) as (L & _).
  specialize (L old []). rewrite app_nil_r in L. rewrite L. cbn [bind]. rewrite E'. cbn [bind]. eauto.
Qed.

Theorem C45_program3_partial : forall tail heap sort c t fuel junk rs,
  (tail < 2 ^ 64)%N -> (forall A, std_heap (heap A)) -> sorts_by_size ce_ops sort ->
  wf_collection c -> sizes_ok2 c -> small_dict c -> some_doc_positive c ->
  holds_collection c t -> length (t_mapped t) < fuel -> query_fuel c < fuel -> Forall (request_ok2 c) rs ->
  exists file, build_tool ac3_build_d visit_index3 false fuel junk t = Ok file /\
    forall old, exists outs, serve3 tail heap sort fuel old file rs = Ok outs /\ Forall2 (answer_to c) rs outs.
Proof.
  intros tail heap sort c t fuel junk rs H1 H2 H3 Hwf Hs Hd Hp Ht Hf Hq Hr. unfold build_tool, serve3, from_files.
  rewrite (C44_files c t _ fuel junk Hwf Ht Hf). cbn [bind].
  destruct (C37_type3_session_bits_partial tail heap sort c H1 H2 H3 Hwf Hs Hp) as (x & E & Hok & H).
  destruct (H fuel rs state2_new Hq Hok Hr) as (outs & s' & E' & Ha & _).
  rewrite index3_view in E. destruct (ac3_build_d (files_of c)) as [d| | |] eqn:Ed; try discriminate. cbn [bind] in E |- *. injection E as <-.
  exists (save_file visit_index3 d). split; [reflexivity|]. intros old. destruct (C45_type3_partial c d Hwf Hd Ed) as (L & _).
  specialize (L old []). rewrite app_nil_r in L. rewrite L. cbn [bind]. rewrite E'. cbn [bind]. eauto.
Qed.

(** Type 4: [bounds] are the boundaries of the blocks of terms the index was built with (C35). *)
Theorem C45_program4_partial : forall tail heap sort bsort c m t fuel junk rs,
  (tail < 2 ^ 64)%N -> (forall A, std_heap (heap A)) -> sorts_by_size ce_ops sort -> (forall A key l, Permutation (bsort A key l) l) ->
  wf_collection c -> sizes_ok2 c -> small_dict c -> few_postings c -> some_doc_positive c ->
  holds_collection c t -> length (t_mapped t) < fuel -> query_fuel c < fuel -> Forall (request_ok4 c) rs ->
  exists d, from_files (ac4_build_d m) false fuel junk t = Ok d /\
  build_tool (ac4_build_d m) visit_index4 false fuel junk t = Ok (save_file visit_index4 d) /\
    forall old, exists outs, serve4 tail heap sort bsort fuel old (save_file visit_index4 d) rs = Ok outs /\ Forall2 (answer4 c (xd_blocks (d4_inv d))) rs outs.
Proof.
  intros tail heap sort bsort c m t fuel junk rs H1 H2 H3 H4 Hwf Hs Hd Hfew Hp Ht Hf Hq Hr. unfold build_tool, serve4, from_files.
  rewrite (C44_files c t _ fuel junk Hwf Ht Hf). cbn [bind].
  destruct (C37_type4_session_bits_partial tail heap sort bsort c m H1 H2 H3 H4 Hwf Hs Hfew Hp) as (x & E & Hok & H).
  destruct (H fuel rs state2_new Hq Hok Hr) as (outs & s' & E' & Ha & _).
  rewrite index4_view in E. destruct (ac4_build_d m (files_of c)) as [d| | |] eqn:Ed; try discriminate. cbn [bind] in E |- *. injection E as <-.
  exists d. split; [reflexivity|]. split; [reflexivity|]. intros old. destruct (C45_type4_partial c m d Hwf Hd Hfew Ed) as (L & _).
  specialize (L old []). rewrite app_nil_r in L. rewrite L. cbn [bind]. rewrite E'. cbn [bind]. eauto.
Qed.

(** The web server (src/web_server.cpp: type 1): it loads an index file written by the build tool and answers /topcomp. *)
Theorem C39_topcomp_loaded_partial : forall tail heap sort c t fuel junk fresh,
  (tail < 2 ^ 64)%N -> (forall A, std_heap (heap A)) -> sorts_by_size ce_ops sort ->
  wf_collection c -> sizes_ok c -> small_dict c -> some_doc_positive c -> some_term_not_in_doc0 c ->
  holds_collection c t -> length (t_mapped t) < fuel -> query_fuel c < fuel ->
  exists file, build_tool ac1_build_d (visit_index1 fresh) true fuel junk t = Ok file /\
    forall old, exists d, load_file (visit_index1 fresh) old file = Ok d /\
    forall k q kvar ts last s,
    (kvar = [] /\ k = 10 \/ decimal kvar k) -> 1 <= k <= MAX_K ->
    query_split q ts last -> first_term_ok c last -> state1_ok s ->
    exists out, topk_answer c (conj_match c ts last) k out /\
      (fits_pool out -> out <> [] -> Forall (fun r => ~ In 37%N (snd r)) out ->
       exists data v s', topcomp (real_containers tail heap sort) (index1_of tail heap sort d) fuel q kvar s = Ok (data, s') /\
         is_json data v /\ suggestions (map snd out) v /\ state1_ok s').
Proof.
  intros tail heap sort c t fuel junk fresh H1 H2 H3 Hwf Hs Hd Hp H0 Ht Hf Hq.
  destruct (C39_topcomp_bits_partial tail heap sort c t fuel junk H1 H2 H3 Hwf Hs Hp H0 Ht Hf Hq) as (x & E & H).
  unfold build_tool. unfold from_files in *. rewrite (C44_files c t _ fuel junk Hwf Ht Hf) in *. cbn [bind] in *.
  rewrite index1_view in E. destruct (ac1_build_d (files_of c)) as [d| | |] eqn:Ed; try discriminate. cbn [bind] in E |- *. injection E as <-.
  exists (save_file (visit_index1 fresh) d). split; [reflexivity|]. intros old. destruct (C45_type1_partial c d fresh Hwf Hd Ed) as (L & _).
  specialize (L old []). rewrite app_nil_r in L. exists d. split; [exact L|]. exact H.
Qed.

Definition all_save := (C45_type1_partial, C45_type2_partial, C45_type3_partial, C45_type4_partial,
  C45_program1_partial, C45_program2_partial, C45_program3_partial, C45_program4_partial, C39_topcomp_loaded_partial).
Print Assumptions all_save.

(** The hypotheses are met; the whole way on [coll_ex], loading into an object with other contents. *)
Example small_dict_ex : small_dict coll_ex.
Proof. split; [repeat constructor|vm_compute; reflexivity]. Qed.

Example C45_program_nonvacuous :
  let rs := [conj10 [98]%N; {| rq_conj := false; rq_k := 2; rq_text := [98]%N |}] in
  let fresh := {| ef_l := 5; ef_high := {| v_size := 0; v_words := [] |}; ef_d1 := {| d_n := 0; d_blocks := []; d_subs := []; d_over := [] |};
                  ef_low := {| v_size := 0; v_words := [] |}; ef_size := 9 |} in
  (do file <- build_tool ac1_build_d (visit_index1 fresh) true 200 7%N texts_ex;
   do old <- ac1_build_d (files_of coll_ex);
   serve1 0 sorting_heap sort_ce fresh 200 (set_d1_fwd (set_d1_comps old (set_td_nodes (d1_comps old) [])) (set_wd_terms (d1_fwd old) 77)) file rs) =
  Ok [[(0, bytes "a bc"); (1, bytes "b de"); (2, bytes "bc a de"); (3, bytes "a b"); (7, bytes "b")]; [(1, bytes "b de"); (2, bytes "bc a de")]].
Proof. vm_compute. reflexivity. Qed.

Example C45_program234_nonvacuous :
  let rs := [conj10 [98]%N; {| rq_conj := false; rq_k := 2; rq_text := [98]%N |}] in
  [(do file <- build_tool ac2_build_d visit_index2 false 200 7%N texts_ex; do old <- ac2_build_d (files_of coll_ex);
    serve2 0 sorting_heap sort_ce 200 (set_d2_lexid old {| cv_size := 0; cv_width := 0; cv_mask := 1%N; cv_bits := [] |}) file rs);
   (do file <- build_tool ac3_build_d visit_index3 false 200 7%N texts_ex; do old <- ac3_build_d (files_of coll_ex);
    serve3 0 sorting_heap sort_ce 200 (set_d3_lexid old {| cv_size := 0; cv_width := 0; cv_mask := 1%N; cv_bits := [] |}) file rs);
   (do file <- build_tool (ac4_build_d 1) visit_index4 false 200 7%N texts_ex; do old <- ac4_build_d 1 (files_of coll_ex);
    serve4 0 sorting_heap sort_ce sort_b 200 (set_d4_lexid old {| cv_size := 0; cv_width := 0; cv_mask := 1%N; cv_bits := [] |}) file rs)] =
  [Ok [[(0, bytes "a bc"); (1, bytes "b de"); (2, bytes "bc a de"); (3, bytes "a b"); (7, bytes "b")]; [(1, bytes "b de"); (2, bytes "bc a de")]];
   Ok [[(0, bytes "a bc"); (1, bytes "b de"); (2, bytes "bc a de"); (3, bytes "a b"); (7, bytes "b")]; [(1, bytes "b de"); (2, bytes "bc a de")]];
   Ok [[(1, bytes "b de"); (3, bytes "a b"); (7, bytes "b")]; [(1, bytes "b de"); (2, bytes "bc a de")]]] (* type 4: see C05_first_document_refuted *).
Proof. vm_compute. reflexivity. Qed.
