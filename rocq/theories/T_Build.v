(** C43: exactly which collections can be indexed. The claim itself (every well-formed collection) is refuted: T_Auto1.C43_zero_doc_refuted. *)
From Coq Require Import Permutation.
From Verif Require Import Base M_Heap S_Heap M_Iter M_Intersect S_Intersect M_Containers S_Containers M_Auto M_Auto1 S_Collection S_Index M_Auto2 S_Index2 M_Blocked S_Blocked.
From Verif Require Import M_Text M_Input S_Text S_Files P_Files M_Bits M_Cvec M_CompactEf M_Real P_Real P_ListContainers S_Build P_Build T_Auto1 T_Real T_Input.
Local Open Scope nat_scope.

(** For any containers as in S_Containers that refuse width 0, as compact_vector does. *)
Theorem C43_type1_exact_partial : forall K c, containers_ok K -> throws_on_width0 K -> wf_collection c ->
  builds_iff (ac1_build K (files_of c)) (some_doc_positive c /\ some_term_not_in_doc0 c).
Proof. exact (fun K c HK H0 => ac1_exact K HK H0 c). Qed.

Theorem C43_type2_exact_partial : forall K c, containers_ok K -> throws_on_width0 K -> wf_collection c ->
  builds_iff (ac2_build K (files_of c)) (some_kept_doc_positive c /\ some_term_not_in_doc0 c).
Proof. exact (fun K c HK H0 => ac2_exact K HK H0 c). Qed.

Theorem C43_type3_exact_partial : forall K c, containers_ok K -> throws_on_width0 K -> wf_collection c ->
  builds_iff (ac3_build K (files_of c)) (some_kept_doc_positive c).
Proof. exact (fun K c HK H0 => ac3_exact K HK H0 c). Qed.

Theorem C43_type4_exact_partial : forall (K : bcontainers) c m, bcontainers_ok K -> throws_on_width0 K -> wf_collection c -> few_postings c ->
  builds_iff (ac4_build K m (files_of c)) (some_kept_doc_positive c).
Proof. exact (fun K c m HK H0 Hwf Hf => ac4_exact K HK H0 c Hwf Hf m). Qed.

(** On bits, from the text of the input files in any layout. *)
Lemma real_width0 tail heap sort : throws_on_width0 (real_containers tail heap sort).
Proof. intros l. reflexivity. Qed.

Definition from_files {A} (build : files -> res A) (trie : bool) (fuel : nat) (junk : N) (t : texts) : res A :=
  do f <- read_files trie fuel junk t; build f.

Theorem C43_bits_partial : forall tail heap sort bsort c t fuel junk m,
  (tail < 2 ^ 64)%N -> (forall A, std_heap (heap A)) -> sorts_by_size ce_ops sort -> (forall A key l, Permutation (bsort A key l) l) ->
  wf_collection c -> holds_collection c t -> length (t_mapped t) < fuel ->
  let K := real_containers tail heap sort in
  let KB := real_bcontainers tail heap sort bsort in
  builds_iff (from_files (ac1_build K) true fuel junk t) (some_doc_positive c /\ some_term_not_in_doc0 c) /\
  builds_iff (from_files (ac2_build K) false fuel junk t) (some_kept_doc_positive c /\ some_term_not_in_doc0 c) /\
  builds_iff (from_files (ac3_build K) false fuel junk t) (some_kept_doc_positive c) /\
  (few_postings c -> builds_iff (from_files (ac4_build KB m) false fuel junk t) (some_kept_doc_positive c)).
Proof.
  intros tail heap sort bsort c t fuel junk m H1 H2 H3 H4 Hwf Ht Hf K KB. unfold from_files. rewrite !(C44_files c t _ fuel junk Hwf Ht Hf). cbn [bind].
  pose proof (real_containers_ok tail heap sort H1 H2 H3) as HK. pose proof (real_bcontainers_ok tail heap sort H1 H2 H3 bsort H4) as HB.
  pose proof (real_width0 tail heap sort) as H0.
  split; [exact (ac1_exact K HK H0 c Hwf)|]. split; [exact (ac2_exact K HK H0 c Hwf)|]. split; [exact (ac3_exact K HK H0 c Hwf)|].
  intros Hfew. exact (ac4_exact KB HB H0 c Hwf Hfew m).
Qed.

Definition all_build := (C43_type1_exact_partial, C43_type2_exact_partial, C43_type3_exact_partial, C43_type4_exact_partial, C43_bits_partial).
Print Assumptions all_build.

(** Both outcomes occur; [coll_17] has 17 completions of which only the first, with doc id 0, is kept (F23): type 1 is built, the others throw. *)
Definition coll_17 : collection :=
  {| terms := map (fun i => [N.of_nat (97 + i)]) (seq 0 17); comps := map (fun i => [N.of_nat (1 + i)]) (seq 0 17); docs := seq 0 17; universe := 17 |}.
Definition ok {A} (r : res A) : nat := match r with Ok _ => 1 | Exn => 2 | UB => 3 | Fuel => 4 end.
Example C43_exact_nonvacuous :
  throws_on_width0 list_containers /\
  wf_collection coll_ex /\ some_doc_positive coll_ex /\ some_kept_doc_positive coll_ex /\ some_term_not_in_doc0 coll_ex /\ few_postings coll_ex /\
  wf_collection coll_17 /\ some_doc_positive coll_17 /\ ~ some_kept_doc_positive coll_17 /\
  map (fun c => let K := b_base K_ex in let f := files_of c in
        [ok (ac1_build K f); ok (ac2_build K f); ok (ac3_build K f); ok (ac4_build K_ex 3 f)]) [coll_ex; coll_doc0; coll_17] =
  [[1; 1; 1; 1]; [2; 2; 2; 2]; [1; 2; 2; 2]].
Proof.
  split; [intros l; reflexivity|]. split; [apply wf_collectionb_ok; reflexivity|]. split; [exists 3; cbn; auto|]. split; [exists 3; cbn; auto|].
  split; [exists 2; split; [cbn; lia|]; intros H; vm_compute in H; repeat (destruct H as [H|H]; try discriminate H); exact H|]. split; [reflexivity|]. split; [apply wf_collectionb_ok; vm_compute; reflexivity|].
  split; [exists 1; cbn; auto|]. split; [intros (d & [<-|[]] & H); lia|]. vm_compute. reflexivity.
Qed.
