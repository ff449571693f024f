(** C60: every search ends, whatever the query, k and history; and throws no exception. Every loop takes at most [query_fuel c] + 1 steps,
    which is (universe + 2) * (number of terms + 2) + 1. *)
From Coq Require Import String.
From Verif Require Import Base S_Order S_Vocab S_Parse M_Heap M_Containers S_Containers M_Auto M_Auto1 S_Collection S_Index S_Found S_Build M_Auto2 S_Index2 M_Blocked S_Blocked S_Ends.
From Verif Require Import P_Heap P_Collection P_Auto1 P_Auto23 P_Auto4 P_ListContainers P_Ends S_Json M_Real T_Real.
From Verif Require Import T_Auto1 T_Auto2 T_Auto4 T_Build.
Local Open Scope nat_scope.

Theorem C60_type1 : forall K c, containers_ok K -> wf_collection c -> some_doc_positive c -> some_term_not_in_doc0 c ->
  exists x, ac1_build K (files_of c) = Ok x /\
    forall fuel rs s, query_fuel c < fuel -> state1_ok s -> ends (session (ac1_request K x fuel) (fun s => pool_results (s1_pool s)) rs s).
Proof. intros K c HK Hwf. exact (ends1 K HK c Hwf). Qed.
Theorem C60_type2 : forall K c, containers_ok K -> wf_collection c -> some_kept_doc_positive c -> some_term_not_in_doc0 c ->
  exists x, ac2_build K (files_of c) = Ok x /\
    forall fuel rs s, query_fuel c < fuel -> state2_ok s -> ends (session (ac2_request K x fuel) (fun s => pool_results (s2_pool s)) rs s).
Proof. intros K c HK Hwf. exact (ends2 K HK c Hwf). Qed.
Theorem C60_type3 : forall K c, containers_ok K -> wf_collection c -> some_kept_doc_positive c ->
  exists x, ac3_build K (files_of c) = Ok x /\
    forall fuel rs s, query_fuel c < fuel -> state2_ok s -> ends (session (ac3_request K x fuel) (fun s => pool_results (s2_pool s)) rs s).
Proof. intros K c HK Hwf. exact (ends3 K HK c Hwf). Qed.
Theorem C60_type4 : forall (K : bcontainers) c m, bcontainers_ok K -> wf_collection c -> few_postings c -> some_kept_doc_positive c ->
  exists x, ac4_build K m (files_of c) = Ok x /\
    forall fuel rs s, query_fuel c < fuel -> state2_ok s -> ends (session (ac4_request K x fuel) (fun s => pool_results (s2_pool s)) rs s).
Proof. intros K c m HK Hwf Hfew. exact (ends4 K HK c Hwf Hfew m). Qed.
Definition all_ends := (C60_type1, C60_type2, C60_type3, C60_type4).
Print Assumptions all_ends.

(** With too few steps a search does not end; with the given number it does, also for odd requests. *)
Example C60_nonvacuous :
  let r b k q := {| rq_conj := b; rq_k := k; rq_text := bytes q |} in
  let rs := [r true 10 "de  b"; r false 0 "  "; r true 1 "zz zz b"; r true 10 "b"; r false 100 "a b"; r true 10 ""]%string in
  let go fuel := do x <- ac1_build (real_containers 0 sorting_heap sort_ce) (files_of coll_ex); do (o, _) <- session (ac1_request _ x fuel) (fun s => pool_results (s1_pool s)) rs state1_new; Ok (map (map fst) o) in
  wf_collection coll_ex /\ query_fuel coll_ex = 60 /\ go 2 = Fuel /\
  go 61 = Ok [[1; 2]; [0; 1; 2; 3; 5; 7]; [0]; [0; 1; 2; 3; 7]; [0; 3]; [0; 1; 2; 3; 5; 7]].
Proof. cbv zeta. split; [exact (proj1 coll_ex_good)|]. split; [reflexivity|]. split; vm_compute; reflexivity. Qed.
