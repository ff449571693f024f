(** From the text of the input files to the answers, on bits: what remains outside are the standard algorithms (std::make_heap,
    push_heap, pop_heap, std::sort), fast_interval and the sockets. *)
From Coq Require Import Permutation String.
From Verif Require Import Base S_Order S_Vocab S_Parse M_Heap S_Heap M_Iter M_Intersect S_Intersect M_Containers S_Containers M_Auto M_Auto1 S_Collection S_Index M_Auto2 S_Index2 M_Blocked S_Blocked.
From Verif Require Import M_Text M_Input S_Text S_Files P_Files M_Bits M_CompactEf M_Real P_Real P_Auto1 P_Auto23 P_ListContainers P_Blocked P_BlockFinal S_Json M_Web.
From Verif Require Import T_Auto1 T_Auto2 T_Auto4 T_Web T_Real T_Input T_Build.
Local Open Scope nat_scope.

(** A program: build the index of the given type from the files, then answer the requests one after the other. *)
Definition program1 K (fuel : nat) (junk : N) (t : texts) (rs : list request) :=
  do x <- from_files (ac1_build K) true fuel junk t;
  do (outs, s) <- session (ac1_request K x fuel) (fun s => pool_results (s1_pool s)) rs state1_new; Ok outs.
Definition program2 K (fuel : nat) (junk : N) (t : texts) (rs : list request) :=
  do x <- from_files (ac2_build K) false fuel junk t;
  do (outs, s) <- session (ac2_request K x fuel) (fun s => pool_results (s2_pool s)) rs state2_new; Ok outs.
Definition program3 K (fuel : nat) (junk : N) (t : texts) (rs : list request) :=
  do x <- from_files (ac3_build K) false fuel junk t;
  do (outs, s) <- session (ac3_request K x fuel) (fun s => pool_results (s2_pool s)) rs state2_new; Ok outs.
Definition program4 (K : bcontainers) (m fuel : nat) (junk : N) (t : texts) (rs : list request) :=
  do x <- from_files (ac4_build K m) false fuel junk t;
  do (outs, s) <- session (ac4_request K x fuel) (fun s => pool_results (s2_pool s)) rs state2_new; Ok outs.

Theorem C37_program_bits_partial : forall tail heap sort c t fuel junk rs,
  (tail < 2 ^ 64)%N -> (forall A, std_heap (heap A)) -> sorts_by_size ce_ops sort ->
  wf_collection c -> sizes_ok2 c -> some_doc_positive c -> some_term_not_in_doc0 c ->
  holds_collection c t -> length (t_mapped t) < fuel -> query_fuel c < fuel ->
  let K := real_containers tail heap sort in
  (Forall (request_ok c) rs -> exists outs, program1 K fuel junk t rs = Ok outs /\ Forall2 (answer_to c) rs outs) /\
  (Forall (request_ok2 c) rs -> exists outs, program2 K fuel junk t rs = Ok outs /\ Forall2 (answer_to c) rs outs) /\
  (Forall (request_ok2 c) rs -> exists outs, program3 K fuel junk t rs = Ok outs /\ Forall2 (answer_to c) rs outs).
Proof.
  intros tail heap sort c t fuel junk rs H1 H2 H3 Hwf Hs Hp H0 Ht Hf Hq K. unfold program1, program2, program3, from_files.
  rewrite !(C44_files c t _ fuel junk Hwf Ht Hf). cbn [bind]. split; [|split]; intros Hr.
  - destruct (C37_type1_session_bits_partial tail heap sort c H1 H2 H3 Hwf (proj1 Hs) Hp H0) as (x & E & Hok & H).
    destruct (H fuel rs state1_new Hq Hok Hr) as (outs & s' & E' & Ha & _). fold K in E, E'. rewrite E. cbn [bind]. rewrite E'. cbn [bind]. eauto.
  - destruct (C37_type2_session_bits_partial tail heap sort c H1 H2 H3 Hwf Hs Hp H0) as (x & E & Hok & H).
    destruct (H fuel rs state2_new Hq Hok Hr) as (outs & s' & E' & Ha & _). fold K in E, E'. rewrite E. cbn [bind]. rewrite E'. cbn [bind]. eauto.
  - destruct (C37_type3_session_bits_partial tail heap sort c H1 H2 H3 Hwf Hs Hp) as (x & E & Hok & H).
    destruct (H fuel rs state2_new Hq Hok Hr) as (outs & s' & E' & Ha & _). fold K in E, E'. rewrite E. cbn [bind]. rewrite E'. cbn [bind]. eauto.
Qed.

(** The web server with an index of type 1 (web_server.cpp) answering /topcomp; it loads a saved index: C39_topcomp_loaded_partial in T_Save. *)
Theorem C39_topcomp_bits_partial : forall tail heap sort c t fuel junk,
  (tail < 2 ^ 64)%N -> (forall A, std_heap (heap A)) -> sorts_by_size ce_ops sort ->
  wf_collection c -> sizes_ok c -> some_doc_positive c -> some_term_not_in_doc0 c ->
  holds_collection c t -> length (t_mapped t) < fuel -> query_fuel c < fuel ->
  let K := real_containers tail heap sort in
  exists x, from_files (ac1_build K) true fuel junk t = Ok x /\
    forall k q kvar ts last s,
    (kvar = [] /\ k = 10 \/ decimal kvar k) -> 1 <= k <= MAX_K ->
    query_split q ts last -> first_term_ok c last -> state1_ok s ->
    exists out, topk_answer c (conj_match c ts last) k out /\
      (fits_pool out -> out <> [] -> Forall (fun r => ~ In 37%N (snd r)) out ->
       exists data v s', topcomp K x fuel q kvar s = Ok (data, s') /\ is_json data v /\ suggestions (map snd out) v /\ state1_ok s').
Proof.
  intros tail heap sort c t fuel junk H1 H2 H3 Hwf Hs Hp H0 Ht Hf Hq K. unfold from_files. rewrite (C44_files c t _ fuel junk Hwf Ht Hf). cbn [bind].
  destruct (C39_topcomp_partial K c (real_containers_ok tail heap sort H1 H2 H3) Hwf Hs Hp H0) as (x & E & H). exists x. split; [exact E|].
  intros k q kvar ts last s. exact (H fuel k q kvar ts last s Hq).
Qed.

Definition all_end := (C37_program_bits_partial, C39_topcomp_bits_partial).
Print Assumptions all_end.

(** The whole program on the files of [coll_ex]. *)
Example C37_program_nonvacuous :
  let K := b_base K_ex in let rs := [conj10 [98]%N; {| rq_conj := false; rq_k := 2; rq_text := [98]%N |}] in
  map (fun p => p K 200 7%N texts_ex rs) [program1; program2; program3] =
  repeat (Ok [[(0, bytes "a bc"); (1, bytes "b de"); (2, bytes "bc a de"); (3, bytes "a b"); (7, bytes "b")];
              [(1, bytes "b de"); (2, bytes "bc a de")]]) 3.
Proof. vm_compute. reflexivity. Qed.
