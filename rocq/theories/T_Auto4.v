(** C05, C06, C07, C37: ef_autocomplete_type4. *)
From Coq Require Import Sorted.
From Verif Require Import Base S_Order P_Order S_Vocab S_Completions S_Parse S_Iter M_Containers S_Containers M_Auto M_Auto1 S_Collection S_Index.
From Verif Require Import M_Auto2 S_Index2 P_Collection P_Auto1 P_Auto23 P_ListContainers T_Auto1 M_Blocked S_Blocked P_Auto4 P_BlockFinal.

(** C05, for every block size [m]: conjunctive search never fails and never reports a wrong completion or text; the
    results are ordered and at most k. They are exactly the right ones under [query_exact]. Excluded: F1, F11, F13, F23, k = 0 and
    k > 15. *)
Theorem C05_conjunctive_topk_partial : forall K c m,
  bcontainers_ok K -> wf_collection c -> sizes_ok2 c -> few_postings c -> some_doc_positive c ->
  exists x, ac4_build K m (files_of c) = Ok x /\
    forall fuel k q ts last s,
    query_fuel c < fuel -> 1 <= k <= MAX_K -> query_split q ts last -> first_term_ok c last -> state2_ok s ->
    exists out, sound_answer c (conj_match c ts last) k out /\
      (query_exact c (bi_bounds K (a4_inverted x)) ts last -> topk_answer c (conj_match c ts last) k out) /\
      (fits_pool out ->
       exists s', ac4_conjunctive_topk K x fuel k q s = Ok s' /\ pool_results (s2_pool s') = Ok out /\ state2_ok s').
Proof.
  intros K c m HK Hwf H17 Hf Hp. destruct (auto4_spec K HK c Hwf Hf H17 Hp m) as (x & E & H). exists x. split; [exact E|].
  intros fuel k q ts last s A1 A2 A4 A5 A6. exact (proj2 (H fuel k q ts last s A1 A2 A4 A5 A6)).
Qed.
Print Assumptions C05_conjunctive_topk_partial.

(** C06: prefix search with type 4. *)
Theorem C06_type4_prefix_topk_partial : forall K c m,
  bcontainers_ok K -> wf_collection c -> sizes_ok2 c -> few_postings c -> some_doc_positive c ->
  exists x, ac4_build K m (files_of c) = Ok x /\
    forall fuel k q ts last s,
    query_fuel c < fuel -> 1 <= k <= MAX_K -> query_split q ts last -> first_term_ok c last ->
    first_completion_ok c ts last -> state2_ok s ->
    exists out, topk_answer c (prefix_match ts last) k out /\
      (fits_pool out ->
       exists s', ac4_prefix_topk K x fuel k q s = Ok s' /\ pool_results (s2_pool s') = Ok out /\ state2_ok s').
Proof.
  intros K c m HK Hwf H17 Hf Hp. destruct (auto4_spec K HK c Hwf Hf H17 Hp m) as (x & E & H). exists x. split; [exact E|].
  intros fuel k q ts last s A1 A2 A4 A5 A6 A7. exact (proj1 (H fuel k q ts last s A1 A2 A4 A5 A7) A6).
Qed.
Print Assumptions C06_type4_prefix_topk_partial.

(** C37 for type 4: after any sequence of requests the index still answers every request as it should. *)
Theorem C37_type4_session_partial : forall K c m,
  bcontainers_ok K -> wf_collection c -> sizes_ok2 c -> few_postings c -> some_doc_positive c ->
  exists x, ac4_build K m (files_of c) = Ok x /\ state2_ok state2_new /\
    forall fuel rs s, query_fuel c < fuel -> state2_ok s -> Forall (request_ok4 c) rs ->
    exists outs s', session (ac4_request K x fuel) (fun s => pool_results (s2_pool s)) rs s = Ok (outs, s') /\
      Forall2 (answer4 c (bi_bounds K (a4_inverted x))) rs outs /\ state2_ok s'.
Proof.
  intros K c m HK Hwf H17 Hf Hp. destruct (auto4_session K HK c Hwf Hf H17 Hp m) as (x & E & H). exists x.
  split; [exact E|]. split; [exact state2_new_ok|exact H].
Qed.
Print Assumptions C37_type4_session_partial.

(** C07: type 4 reports the same as type 1, conjunctive searches under [query_exact]. *)
Theorem C07_type4_agrees_partial : forall K c m,
  bcontainers_ok K -> wf_collection c -> sizes_ok2 c -> few_postings c -> some_doc_positive c -> some_term_not_in_doc0 c ->
  exists x1 x4, ac1_build K (files_of c) = Ok x1 /\ ac4_build K m (files_of c) = Ok x4 /\
  forall fuel rs, query_fuel c < fuel -> Forall (request_ok4 c) rs ->
    Forall (fun r => rq_conj r = true -> forall ts last, query_split (rq_text r) ts last ->
              query_exact c (bi_bounds K (a4_inverted x4)) ts last) rs ->
  exists outs s1 s4,
    session (ac1_request K x1 fuel) (fun s => pool_results (s1_pool s)) rs state1_new = Ok (outs, s1) /\
    session (ac4_request K x4 fuel) (fun s => pool_results (s2_pool s)) rs state2_new = Ok (outs, s4).
Proof. exact (fun K c m HK Hwf => types_agree4 K HK c Hwf m). Qed.
Print Assumptions C07_type4_agrees_partial.

(** ** Refutations of C05 *)
Definition run4 (m : nat) (c : collection) (rs : list request) : res (list (list (nat * list N))) :=
  do x <- ac4_build list_bcontainers m (files_of c);
  do (outs, s) <- session (ac4_request list_bcontainers x (query_fuel c + 1)) (fun s => pool_results (s2_pool s)) rs state2_new;
  Ok outs.
Definition conj10 (t : list N) : request := {| rq_conj := true; rq_k := 10; rq_text := t |}.

(** The conditions of C05 hold for these collections. *)
Definition good (c : collection) : Prop :=
  wf_collection c /\ sizes_ok2 c /\ few_postings c /\ some_doc_positive c.

Lemma coll_ex_good : good coll_ex.
Proof.
  split; [apply wf_collectionb_ok; reflexivity|]. split; [split; discriminate|]. split; [reflexivity|]. exists 3. cbn. auto.
Qed.

(** F5: one block; the query "a " (a complete token and an empty last token) misses "a bc", the best completion. *)
Theorem C05_first_document_refuted :
  good coll_ex /\ query_split [97; 32]%N [[97]]%N [] /\ first_term_ok coll_ex [] /\
  exists out, run4 100 coll_ex [conj10 [97; 32]%N] = Ok [out] /\
    out = [(2, [98; 99; 32; 97; 32; 100; 101]%N); (3, [97; 32; 98]%N)] /\
    ~ topk_answer coll_ex (conj_match coll_ex [[97]]%N []) 10 out.
Proof.
  split; [exact coll_ex_good|].
  split; [exists ([97] ++ [32])%N; split; [reflexivity|]; split; [repeat constructor; discriminate|]; apply (words_word [97]%N); [discriminate|repeat constructor; discriminate|constructor]|]. split; [intros H; congruence|].
  eexists. split; [vm_compute; reflexivity|]. split; [reflexivity|].
  intros (_ & _ & _ & H). assert (Hd : is_doc coll_ex 0 [1; 3]%N) by (exists 1; split; reflexivity).
  destruct (H 0 [1; 3]%N Hd) as [X|[X _]]; [|cbn in X; intuition discriminate|discriminate].
  split; [intros t [<-|[]] _; left; reflexivity|]. exists [97]%N. split; [left; reflexivity|]. exists [97]%N. reflexivity.
Qed.
Print Assumptions C05_first_document_refuted.

(** F6: one block per term; the query "b" misses the completions with "bc", the last term of the range. *)
Theorem C05_last_term_refuted :
  good coll_ex /\ query_split [98]%N [] [98]%N /\ first_term_ok coll_ex [98]%N /\
  exists out, run4 0 coll_ex [conj10 [98]%N] = Ok [out] /\ map fst out = [1; 3; 7] /\
    ~ topk_answer coll_ex (conj_match coll_ex [] [98]%N) 10 out.
Proof.
  split; [exact coll_ex_good|].
  split; [exists []; split; [reflexivity|]; split; [repeat constructor; discriminate|constructor]|]. split; [intros _ [t Ht]; discriminate|].
  eexists. split; [vm_compute; reflexivity|]. split; [reflexivity|].
  intros (_ & _ & _ & H). assert (Hd : is_doc coll_ex 0 [1; 3]%N) by (exists 1; split; reflexivity).
  destruct (H 0 [1; 3]%N Hd) as [X|[X _]]; [|cbn in X; intuition discriminate|discriminate].
  split; [intros t []|]. exists [98; 99]%N. split; [right; left; reflexivity|]. exists [99]%N. reflexivity.
Qed.
Print Assumptions C05_last_term_refuted.

(** F7: without complete tokens, a completion with terms of several blocks is reported several times. *)
Theorem C05_duplicates_refuted :
  good coll_ex /\ query_split [] [] [] /\ first_term_ok coll_ex [] /\
  exists out, run4 0 coll_ex [conj10 []] = Ok [out] /\ map fst out = [0; 0; 1; 2; 2; 3; 3; 7] /\
    ~ topk_answer coll_ex (conj_match coll_ex [] []) 10 out.
Proof.
  split; [exact coll_ex_good|].
  split; [exists []; split; [reflexivity|]; split; [repeat constructor; discriminate|constructor]|]. split; [intros H; congruence|].
  eexists. split; [vm_compute; reflexivity|]. split; [reflexivity|].
  intros (H & _). cbn in H. inversion H as [|? ? _ H1]; subst. inversion H1; subst. lia.
Qed.
Print Assumptions C05_duplicates_refuted.

(** F8: blocks {a, ba}, {bb}, {bc, c}; the completion "a bb c" and the query "c b". Its document is in the first block
    because of "a"; there no term of the range is found, and the other blocks are not looked at. *)
Definition coll_f8 : collection := {|
  terms := [[97]; [98; 97]; [98; 98]; [98; 99]; [99]]%N;
  comps := [[1; 3; 5]; [2; 5]; [3]; [4]]%N; docs := [2; 0; 3; 1]; universe := 4 |}.
Theorem C05_one_block_checked_refuted :
  good coll_f8 /\ query_split [99; 32; 98]%N [[99]]%N [98]%N /\ first_term_ok coll_f8 [98]%N /\
  run4 2 coll_f8 [conj10 [99; 32; 98]%N] = Ok [[]] /\
  is_doc coll_f8 2 [1; 3; 5]%N /\ conj_match coll_f8 [[99]]%N [98]%N (words_of coll_f8 [1; 3; 5]%N).
Proof.
  split.
  { split; [apply wf_collectionb_ok; reflexivity|]. split; [split; discriminate|]. split; [reflexivity|]. exists 3. cbn. auto. }
  split; [exists ([99] ++ [32])%N; split; [reflexivity|]; split; [repeat constructor; discriminate|]; apply (words_word [99]%N); [discriminate|repeat constructor; discriminate|constructor]|]. split; [intros _ [t Ht]; discriminate|].
  split; [vm_compute; reflexivity|]. split; [exists 0; split; reflexivity|]. split.
  - intros t [<-|[]] _. right. right. left. reflexivity.
  - exists [98; 98]%N. split; [right; left; reflexivity|]. exists [98]%N. reflexivity.
Qed.
Print Assumptions C05_one_block_checked_refuted.

(** C07: type 4 does not agree with type 1. *)
Theorem C07_type4_refuted : good coll_ex /\
  exists r outs1 outs4, run1 coll_ex [r] = Ok outs1 /\ run4 0 coll_ex [r] = Ok outs4 /\ outs1 <> outs4.
Proof.
  split; [exact coll_ex_good|]. exists (conj10 [98]%N). do 2 eexists. split; [vm_compute; reflexivity|]. split; [vm_compute; reflexivity|discriminate].
Qed.
Print Assumptions C07_type4_refuted.

(** ** Non-vacuity: blocks {a, b, bc} and {de}; the query "de b" is exact: "bc a de" is not the first document of the block {de}. *)
Lemma exact_ex : query_exact coll_ex [3; 4] [[100; 101]]%N [98; 99]%N.
Proof.
  split.
  - intros t1 t2 H1 H2 P1 P2 b Hb Hx. cbn in H2.
    assert (t1 = 3 /\ t2 = 3).
    { destruct P1 as [w1 E1], P2 as [w2 E2]. assert (Ht : forall t, 1 <= t <= 4 -> forall w, nth (t - 1) (terms coll_ex) [] = [98; 99]%N ++ w -> t = 3).
      { intros t Ht w E. destruct t as [|[|[|[|[|t]]]]]; cbn in E; try discriminate; lia. }
      split; [eapply Ht; [|exact E1]; lia|eapply Ht; [|exact E2]; lia]. }
    lia.
  - intros i d ids _ Hin (Hx & Hl) Hd Hm.
    assert (i = 1).
    { destruct (Hin 4) as (A & B & C); [cbn; lia|now left|]. destruct i as [|[|i]]; cbn in *; lia. }
    subst i. assert (Hle : d <= 1) by (apply (Hl 1 4); [repeat split; cbn; lia|cbn; auto]).
    destruct Hd as (j & Hj & Hc). destruct j as [|[|[|[|[|[|j]]]]]]; cbn in Hj, Hc; try (destruct j; discriminate); injection Hj as <-; injection Hc as <-; try lia.
    + destruct Hm as [Hm _]. specialize (Hm [100; 101]%N (or_introl eq_refl)). cbn in Hm. destruct Hm as [X|[X|[]]]; auto; discriminate.
    + destruct Hm as [_ (w & Hw & [t Ht])]. cbn in Hw. destruct Hw as [<-|[<-|[]]]; discriminate.
Qed.
Example C05_nonvacuous :
  bcontainers_ok list_bcontainers /\ good coll_ex /\ state2_ok state2_new /\ first_term_ok coll_ex [98; 99]%N /\
  query_split [100; 101; 32; 98; 99]%N [[100; 101]]%N [98; 99]%N /\ query_exact coll_ex [3; 4] [[100; 101]]%N [98; 99]%N /\
  (exists x, ac4_build list_bcontainers 7 (files_of coll_ex) = Ok x /\ bi_bounds _ (a4_inverted x) = [3; 4]) /\
  run4 7 coll_ex [conj10 [100; 101; 32; 98; 99]%N; {| rq_conj := false; rq_k := 2; rq_text := [98]%N |}] =
    Ok [[(2, [98; 99; 32; 97; 32; 100; 101]%N)]; [(1, [98; 32; 100; 101]%N); (2, [98; 99; 32; 97; 32; 100; 101]%N)]].
Proof.
  split; [exact list_bcontainers_ok|]. split; [exact coll_ex_good|]. split; [exact state2_new_ok|].
  split; [intros _ [t Ht]; discriminate|].
  split; [exists ([100; 101] ++ [32])%N; split; [reflexivity|]; split; [repeat constructor; discriminate|]; apply (words_word [100; 101]%N); [discriminate|repeat constructor; discriminate|constructor]|]. split; [exact exact_ex|].
  split; [eexists; split; vm_compute; reflexivity|vm_compute; reflexivity].
Qed.
