(** C56, C57, C58: how the answers to related requests are related. The states [s] and [t] are arbitrary: any histories. *)
From Coq Require Import String.
From Verif Require Import Base S_Order S_Vocab S_Parse M_Heap M_Containers S_Containers M_Auto M_Auto1 S_Collection S_Index S_Found S_Build M_Auto2 S_Index2 M_Blocked S_Blocked S_Meta.
From Verif Require Import P_Heap P_Collection P_Auto1 P_Auto23 P_Auto4 P_ListContainers P_Meta S_Json.
From Verif Require Import T_Auto1 T_Auto2 T_Auto4 T_Build.
Local Open Scope nat_scope.

(** ** C56: asking for fewer results gives the first ones *)
Lemma fewer_less r r' : fewer r r' -> less r r'.
Proof. intros (A & B & C). split; [exact A|]. split; [exact B|]. split; [apply C|left; apply C]. Qed.
Lemma limited_less r r' : limited r r' -> less r r'.
Proof. intros (A & B & C & D). split; [exact A|]. split; [exact B|]. split; [exact C|now right]. Qed.

Theorem C56_type1 : forall K c, containers_ok K -> wf_collection c -> some_doc_positive c -> some_term_not_in_doc0 c ->
  exists x, ac1_build K (files_of c) = Ok x /\
    forall fuel r r' s t s' out', query_fuel c < fuel -> state1_ok s -> state1_ok t -> fewer r r' \/ limited r r' ->
    ac1_request K x fuel r' s = Ok s' -> pool_results (s1_pool s') = Ok out' ->
    exists t', ac1_request K x fuel r t = Ok t' /\ pool_results (s1_pool t') = Ok (firstn (rq_k r) out').
Proof.
  intros K c HK Hwf Hp H0. destruct (fewer1 c Hwf K HK Hp H0) as (x & E & H). exists x. split; [exact E|].
  intros fuel r r' s t s' out' Hf Hs Ht Hl. apply H; auto. destruct Hl; [now apply fewer_less|now apply limited_less].
Qed.
Theorem C56_type2 : forall K c, containers_ok K -> wf_collection c -> some_kept_doc_positive c -> some_term_not_in_doc0 c ->
  exists x, ac2_build K (files_of c) = Ok x /\
    forall fuel r r' s t s' out', query_fuel c < fuel -> state2_ok s -> state2_ok t -> fewer r r' \/ limited r r' ->
    ac2_request K x fuel r' s = Ok s' -> pool_results (s2_pool s') = Ok out' ->
    exists t', ac2_request K x fuel r t = Ok t' /\ pool_results (s2_pool t') = Ok (firstn (rq_k r) out').
Proof.
  intros K c HK Hwf Hp H0. destruct (fewer2 c Hwf K HK Hp H0) as (x & E & H). exists x. split; [exact E|].
  intros fuel r r' s t s' out' Hf Hs Ht Hl. apply H; auto. destruct Hl; [now apply fewer_less|now apply limited_less].
Qed.
Theorem C56_type3 : forall K c, containers_ok K -> wf_collection c -> some_kept_doc_positive c ->
  exists x, ac3_build K (files_of c) = Ok x /\
    forall fuel r r' s t s' out', query_fuel c < fuel -> state2_ok s -> state2_ok t -> fewer r r' \/ limited r r' ->
    ac3_request K x fuel r' s = Ok s' -> pool_results (s2_pool s') = Ok out' ->
    exists t', ac3_request K x fuel r t = Ok t' /\ pool_results (s2_pool t') = Ok (firstn (rq_k r) out').
Proof.
  intros K c HK Hwf Hp. destruct (fewer3 c Hwf K HK Hp) as (x & E & H). exists x. split; [exact E|].
  intros fuel r r' s t s' out' Hf Hs Ht Hl. apply H; auto. destruct Hl; [now apply fewer_less|now apply limited_less].
Qed.
(** Also with an index of type 4, whose results are not always the right ones. *)
Theorem C56_type4 : forall (K : bcontainers) c m, bcontainers_ok K -> wf_collection c -> few_postings c -> some_kept_doc_positive c ->
  exists x, ac4_build K m (files_of c) = Ok x /\
    forall fuel r r' s t s' out', query_fuel c < fuel -> state2_ok s -> state2_ok t -> fewer r r' ->
    ac4_request K x fuel r' s = Ok s' -> pool_results (s2_pool s') = Ok out' ->
    exists t', ac4_request K x fuel r t = Ok t' /\ pool_results (s2_pool t') = Ok (firstn (rq_k r) out').
Proof. intros K c m HK Hwf Hfew Hp. exact (fewer4 K HK c Hwf Hfew m Hp). Qed.

(** Not so for k = 0 there: "b de" is a result for k = 1, but the search without limit stops before it (F10). *)
Theorem C56_type4_unlimited_refuted :
  let ask k := {| rq_conj := true; rq_k := k; rq_text := bytes "d" |} in
  good coll_ex /\ limited (ask 1) (ask 0) /\ run4 3 coll_ex [ask 0] = Ok [[]] /\ run4 3 coll_ex [ask 1] = Ok [[(1, bytes "b de")]].
Proof.
  cbv zeta. split; [exact coll_ex_good|]. split; [repeat split; auto|]. split; vm_compute; reflexivity.
Qed.

Example C56_nonvacuous :
  let ask b k := {| rq_conj := b; rq_k := k; rq_text := bytes "b" |} in
  let rs b := [ask b 2; ask b 1] in
  wf_collection coll_ex /\ fewer (ask true 1) (ask true 2) /\ limited (ask true 1) (ask true 0) /\
  run1 coll_ex (rs false) = Ok [[(1, bytes "b de"); (2, bytes "bc a de")]; [(1, bytes "b de")]] /\
  run2 coll_ex (rs true) = Ok [[(0, bytes "a bc"); (1, bytes "b de")]; [(0, bytes "a bc")]] /\
  run3 coll_ex (rs true) = run2 coll_ex (rs true) /\ run4 100 coll_ex (rs true) = run2 coll_ex (rs true).
Proof.
  cbv zeta. split; [apply (proj1 coll_ex_good)|]. split; [split; [reflexivity|]; split; [reflexivity|]; cbn; lia|]. split; [split; [reflexivity|]; split; [reflexivity|]; cbn; lia|]. split; [vm_compute; reflexivity|]. split; [vm_compute; reflexivity|]. split; vm_compute; reflexivity.
Qed.
Print Assumptions C56_type1.
Print Assumptions C56_type2.
Print Assumptions C56_type3.
Print Assumptions C56_type4.

(** ** C57: a more specific query narrows the results *)
(** In particular: typing on, and putting another complete token in front of a conjunctive query. *)
Theorem C57_typing : forall b k q x, no_space x -> refines {| rq_conj := b; rq_k := k; rq_text := q |} {| rq_conj := b; rq_k := k; rq_text := q ++ x |}.
Proof.
  intros b k q x Hx. split; [reflexivity|]. split; [reflexivity|]. destruct (P_ParseFc.query_split_exists_unique q) as (ts & last & Hq & _).
  exists ts, last, ts, (last ++ x). split; [exact Hq|]. destruct Hq as (body & -> & Hl & Hw). split; [|split; [now exists x|destruct b; cbn; auto using incl_refl]].
  exists body. split; [cbn; now rewrite app_assoc|]. split; [|exact Hw]. unfold no_space in *. rewrite Forall_forall in *. intros y Hy. apply in_app_or in Hy. destruct Hy; auto.
Qed.
Theorem C57_token : forall k q t, t <> [] -> no_space t -> refines {| rq_conj := true; rq_k := k; rq_text := q |} {| rq_conj := true; rq_k := k; rq_text := t ++ 32%N :: q |}.
Proof.
  intros k q t Ht Hn. split; [reflexivity|]. split; [reflexivity|]. destruct (P_ParseFc.query_split_exists_unique q) as (ts & last & Hq & _).
  exists ts, last, (t :: ts), last. split; [exact Hq|]. destruct Hq as (body & -> & Hl & Hw). split; [|split; [now exists []; rewrite app_nil_r|intros y Hy; now right]].
  exists (t ++ 32%N :: body). split; [cbn; now rewrite <- app_assoc|]. split; [exact Hl|]. now constructor.
Qed.

Theorem C57_type1_partial : forall K c, containers_ok K -> wf_collection c -> some_doc_positive c -> some_term_not_in_doc0 c ->
  exists x, ac1_build K (files_of c) = Ok x /\
    forall fuel r r' s t s' t' out out', query_fuel c < fuel -> state1_ok s -> state1_ok t -> refines r r' -> ~ becomes_first c r r' ->
    ac1_request K x fuel r s = Ok s' -> pool_results (s1_pool s') = Ok out ->
    ac1_request K x fuel r' t = Ok t' -> pool_results (s1_pool t') = Ok out' -> includes (limit c (rq_k r)) out out'.
Proof.
  intros K c HK Hwf Hp H0. destruct (ask1 K HK c Hwf Hp H0) as (x & E & H). exists x. split; [exact E|].
  intros fuel r r' s t s' t' out out' Hf Hs Ht Hr Hn E1 E2 E3 E4.
  refine (related c res1 (found_for1 c) _ (ac1_request K x fuel) state1_ok (fun o => o) r r' _ _ _ s t s' t' out out' Hs Ht E1 E2 E3 E4); [apply Hr| |].
  - intros r1 ts last s1 _ Hq Hs1. exact (H fuel r1 ts last s1 Hf Hq Hs1).
  - intros ts last ts' last' o o' Hq Hq'. now apply refine1 with (ts := ts) (last := last) (ts' := ts') (last' := last').
Qed.
(** With the integer dictionary, prefix search may find the first completion for the longer query only. *)
Theorem C57_type2_partial : forall K c, containers_ok K -> wf_collection c -> some_kept_doc_positive c -> some_term_not_in_doc0 c ->
  exists x, ac2_build K (files_of c) = Ok x /\
    forall fuel r r' s t s' t' out out', query_fuel c < fuel -> state2_ok s -> state2_ok t -> refines r r' -> ~ becomes_first c r r' ->
    ac2_request K x fuel r s = Ok s' -> pool_results (s2_pool s') = Ok out ->
    ac2_request K x fuel r' t = Ok t' -> pool_results (s2_pool t') = Ok out' ->
    includes (limit c (rq_k r)) out (if rq_conj r then out' else without_first c out').
Proof.
  intros K c HK Hwf Hp H0. destruct (ask2 K HK c Hwf Hp H0) as (x & E & H). exists x. split; [exact E|].
  intros fuel r r' s t s' t' out out' Hf Hs Ht Hr Hn E1 E2 E3 E4.
  refine (related c res2 (found_for2 c) _ (ac2_request K x fuel) state2_ok (fun o => if rq_conj r then o else without_first c o) r r' _ _ _ s t s' t' out out' Hs Ht E1 E2 E3 E4); [apply Hr| |].
  - intros r1 ts last s1 _ Hq Hs1. exact (H fuel r1 ts last s1 Hf Hq Hs1).
  - intros ts last ts' last' o o' Hq Hq'. now apply (refine2 c Hwf) with (ts := ts) (last := last) (ts' := ts') (last' := last').
Qed.
Theorem C57_type3_partial : forall K c, containers_ok K -> wf_collection c -> some_kept_doc_positive c ->
  exists x, ac3_build K (files_of c) = Ok x /\
    forall fuel r r' s t s' t' out out', query_fuel c < fuel -> state2_ok s -> state2_ok t -> refines r r' -> ~ becomes_first c r r' ->
    ac3_request K x fuel r s = Ok s' -> pool_results (s2_pool s') = Ok out ->
    ac3_request K x fuel r' t = Ok t' -> pool_results (s2_pool t') = Ok out' ->
    includes (limit c (rq_k r)) out (if rq_conj r then out' else without_first c out').
Proof.
  intros K c HK Hwf Hp. destruct (ask3 K HK c Hwf Hp) as (x & E & H). exists x. split; [exact E|].
  intros fuel r r' s t s' t' out out' Hf Hs Ht Hr Hn E1 E2 E3 E4.
  refine (related c res2 (found_for2 c) (fun _ _ _ => reportable2 c) (ac3_request K x fuel) state2_ok (fun o => if rq_conj r then o else without_first c o) r r' _ _ _ s t s' t' out out' Hs Ht E1 E2 E3 E4); [apply Hr| |].
  - intros r1 ts last s1 _ Hq Hs1. exact (H fuel r1 ts last s1 Hf Hq Hs1).
  - intros ts last ts' last' o o' Hq Hq'. now apply (refine2 c Hwf) with (ts := ts) (last := last) (ts' := ts') (last' := last').
Qed.
(** An index of type 4: prefix searches only. *)
Theorem C57_type4_partial : forall (K : bcontainers) c m, bcontainers_ok K -> wf_collection c -> few_postings c -> some_kept_doc_positive c ->
  exists x, ac4_build K m (files_of c) = Ok x /\
    forall fuel r r' s t s' t' out out', query_fuel c < fuel -> state2_ok s -> state2_ok t -> refines r r' -> ~ becomes_first c r r' -> rq_conj r = false ->
    ac4_request K x fuel r s = Ok s' -> pool_results (s2_pool s') = Ok out ->
    ac4_request K x fuel r' t = Ok t' -> pool_results (s2_pool t') = Ok out' -> includes (limit c (rq_k r)) out (without_first c out').
Proof.
  intros K c m HK Hwf Hfew Hp. destruct (ask4 K HK c Hwf Hfew m Hp) as (x & E & H). exists x. split; [exact E|].
  intros fuel r r' s t s' t' out out' Hf Hs Ht Hr Hn Hc E1 E2 E3 E4. unfold ac4_request in E1, E3. rewrite <- (proj1 Hr), Hc in E3. rewrite Hc in E1.
  refine (related c res2 (fun _ => prefix_found c) (fun _ _ _ => reportable2 c) (fun r => ac4_prefix_topk K x fuel (rq_k r) (rq_text r)) state2_ok (without_first c) r r' _ _ _ s t s' t' out out' Hs Ht E1 E2 E3 E4); [apply Hr| |].
  - intros r1 ts last s1 _ Hq Hs1. exact (H fuel r1 ts last s1 Hf Hq Hs1).
  - intros ts last ts' last' o o' Hq Hq' A A'. pose proof (refine2 c Hwf r r' ts last ts' last' o o' Hr Hn Hq Hq') as X. unfold found_for2 in X.
    rewrite <- (proj1 Hr), Hc in X. exact (X A A').
Qed.
(** and conjunctive searches that it answers exactly. *)
Theorem C57_type4_conj_partial : forall (K : bcontainers) c m, bcontainers_ok K -> wf_collection c -> few_postings c -> some_kept_doc_positive c ->
  exists x, ac4_build K m (files_of c) = Ok x /\
    let exact r := forall ts last, query_split (rq_text r) ts last -> query_exact_by c (found c last) (bi_bounds K (a4_inverted x)) ts in
    forall fuel r r' s t s' t' out out', query_fuel c < fuel -> state2_ok s -> state2_ok t -> refines r r' -> ~ becomes_first c r r' ->
    rq_conj r = true -> 1 <= rq_k r -> exact r -> exact r' ->
    ac4_request K x fuel r s = Ok s' -> pool_results (s2_pool s') = Ok out ->
    ac4_request K x fuel r' t = Ok t' -> pool_results (s2_pool t') = Ok out' -> includes (rq_k r) out out'.
Proof.
  intros K c m HK Hwf Hfew Hp. destruct (ask4_conj K HK c Hwf Hfew m Hp) as (x & E & H). exists x. split; [exact E|]. intros exact_.
  intros fuel r r' s t s' t' out out' Hf Hs Ht Hr Hn Hc Hk Hx Hx' E1 E2 E3 E4. rewrite <- (limit_id c (rq_k r) Hk).
  refine (related c res2 (found_for2 c) (fun _ _ _ => reportable2 c) (ac4_request K x fuel) state2_ok (fun o => o) r r' _ _ _ s t s' t' out out' Hs Ht E1 E2 E3 E4); [apply Hr| |].
  - intros r1 ts last s1 Hor Hq Hs1. apply (H fuel r1 ts last s1 Hf Hq Hs1).
    + destruct Hor as [->| ->]; [exact Hk|]. now rewrite <- (proj1 (proj2 Hr)).
    + intros _. destruct Hor as [->| ->]; [now apply Hx|now apply Hx'].
  - intros ts last ts' last' o o' Hq Hq' A A'. pose proof (refine2 c Hwf r r' ts last ts' last' o o' Hr Hn Hq Hq' A A') as X. now rewrite Hc in X.
Qed.
Print Assumptions C57_type4_conj_partial.
Print Assumptions C57_type1_partial.
Print Assumptions C57_type2_partial.
Print Assumptions C57_type3_partial.
Print Assumptions C57_type4_partial.

(** F1: for "a" the first term "ab" is not found, for "ab" it is; by either search and with all types. *)
Theorem C57_first_term_refuted :
  let ask b q := {| rq_conj := b; rq_k := 10; rq_text := bytes q |} in
  good coll_f1 /\ forall b, refines (ask b "a"%string) (ask b "ab"%string) /\
  let rs := [ask b "a"%string; ask b "ab"%string] in let outs := Ok [[]; [(1, bytes "ab")]] in
  run1 coll_f1 rs = outs /\ run2 coll_f1 rs = outs /\ run3 coll_f1 rs = outs /\ run4 100 coll_f1 rs = outs.
Proof.
  cbv zeta. split.
  { split; [apply wf_collectionb_ok; reflexivity|]. split; [split; discriminate|]. split; [reflexivity|]. exists 1. cbn. auto. }
  intros b. split; [exact (C57_typing b 10 (bytes "a") (bytes "b") ltac:(repeat constructor; discriminate))|].
  destruct b; (split; [vm_compute; reflexivity|]); (split; [vm_compute; reflexivity|]); split; vm_compute; reflexivity.
Qed.
(** F2: the first completion "b1" is found for "b1", but not for "b". *)
Definition coll_b1 : collection := {| terms := map bytes ["a"; "b0"; "b1"]%string; comps := [[3]; [3; 1; 2]]%N; docs := [0; 1]; universe := 2 |}.
Theorem C57_first_completion_refuted :
  let ask q := {| rq_conj := false; rq_k := 10; rq_text := bytes q |} in
  good coll_b1 /\ some_term_not_in_doc0 coll_b1 /\ refines (ask "b"%string) (ask "b1"%string) /\ ~ becomes_first coll_b1 (ask "b"%string) (ask "b1"%string) /\
  let rs := [ask "b"%string; ask "b1"%string] in let all := [(0, bytes "b1"); (1, bytes "b1 a b0")] in
  run1 coll_b1 rs = Ok [all; all] /\ let outs := Ok [[(1, bytes "b1 a b0")]; all] in run2 coll_b1 rs = outs /\ run3 coll_b1 rs = outs /\ run4 100 coll_b1 rs = outs.
Proof.
  cbv zeta. split.
  { split; [apply wf_collectionb_ok; reflexivity|]. split; [split; discriminate|]. split; [reflexivity|]. exists 1. cbn. auto. }
  split; [exists 1; split; [cbn; lia|]; intros H; vm_compute in H; repeat (destruct H as [H|H]; try discriminate H); exact H|].
  split; [exact (C57_typing false 10 (bytes "b") (bytes "1") ltac:(repeat constructor; discriminate))|].
  split.
  { intros (ts & last & ts' & last' & _ & (body & E & _) & _ & _ & Hl). rewrite Hl in E. cbn in E.
    destruct body as [|y1 [|y2 [|y3 body]]]; cbn in E; discriminate E. }
  split; [vm_compute; reflexivity|]. split; [vm_compute; reflexivity|]. split; vm_compute; reflexivity.
Qed.
(** F6: conjunctive search with an index of type 4 finds "a bc" for "bc", but not for "b". *)
Theorem C57_type4_refuted :
  let ask q := {| rq_conj := true; rq_k := 10; rq_text := bytes q |} in
  good coll_ex /\ refines (ask "b"%string) (ask "bc"%string) /\
  run4 0 coll_ex [ask "b"%string; ask "bc"%string] =
    Ok [[(1, bytes "b de"); (3, bytes "a b"); (7, bytes "b")]; [(0, bytes "a bc"); (2, bytes "bc a de")]].
Proof.
  cbv zeta. split; [exact coll_ex_good|]. split; [exact (C57_typing true 10 (bytes "b") (bytes "c") ltac:(repeat constructor; discriminate))|]. vm_compute. reflexivity.
Qed.

(** The second answer is part of the first; and with k = 1 the first one is full with a better result. *)
Example C57_nonvacuous :
  let ask k q := {| rq_conj := true; rq_k := k; rq_text := bytes q |} in
  wf_collection coll_ex /\ refines (ask 10 "b"%string) (ask 10 "bc"%string) /\ refines (ask 1 "b"%string) (ask 1 "de b"%string) /\
  ~ becomes_first coll_ex (ask 10 "b"%string) (ask 10 "bc"%string) /\
  let rs := [ask 10 "b"; ask 10 "bc"; ask 1 "b"; ask 1 "de b"]%string in
  let outs := Ok [[(0, bytes "a bc"); (1, bytes "b de"); (2, bytes "bc a de"); (3, bytes "a b"); (7, bytes "b")];
                  [(0, bytes "a bc"); (2, bytes "bc a de")]; [(0, bytes "a bc")]; [(1, bytes "b de")]] in
  run1 coll_ex rs = outs /\ run2 coll_ex rs = outs /\ run3 coll_ex rs = outs.
Proof.
  cbv zeta. split; [exact (proj1 coll_ex_good)|].
  split; [exact (C57_typing true 10 (bytes "b") (bytes "c") ltac:(repeat constructor; discriminate))|].
  split; [exact (C57_token 1 (bytes "b") (bytes "de") ltac:(discriminate) ltac:(repeat constructor; discriminate))|].
  split.
  { intros (ts & last & ts' & last' & _ & (body & E & _) & _ & _ & Hl). rewrite Hl in E. cbn in E.
    destruct body as [|y1 [|y2 [|y3 body]]]; cbn in E; discriminate E. }
  split; [vm_compute; reflexivity|]. split; vm_compute; reflexivity.
Qed.

(** ** C58: conjunctive search finds everything prefix search finds *)
Theorem C58_type1 : forall K c, containers_ok K -> wf_collection c -> some_doc_positive c -> some_term_not_in_doc0 c ->
  exists x, ac1_build K (files_of c) = Ok x /\
    forall fuel r r' s t s' t' out out', query_fuel c < fuel -> state1_ok s -> state1_ok t -> both_ways r r' ->
    ac1_request K x fuel r s = Ok s' -> pool_results (s1_pool s') = Ok out ->
    ac1_request K x fuel r' t = Ok t' -> pool_results (s1_pool t') = Ok out' -> includes (limit c (rq_k r)) out' out.
Proof.
  intros K c HK Hwf Hp H0. destruct (ask1 K HK c Hwf Hp H0) as (x & E & H). exists x. split; [exact E|].
  intros fuel r r' s t s' t' out out' Hf Hs Ht Hr E1 E2 E3 E4. pose proof Hr as (H1 & H2 & H3 & H4). rewrite H3.
  refine (related c res1 (found_for1 c) _ (ac1_request K x fuel) state1_ok (fun o => o) r' r _ _ _ t s t' s' out' out Ht Hs E3 E4 E1 E2); [now symmetry| |].
  - intros r1 ts last s1 _ Hq Hs1. exact (H fuel r1 ts last s1 Hf Hq Hs1).
  - intros ts last ts' last' o o' Hq Hq' A A'. rewrite <- H3 in *. exact (both1 c r r' ts' last' ts last o' o Hr Hq' Hq A' A).
Qed.
Theorem C58_type2 : forall K c, containers_ok K -> wf_collection c -> some_kept_doc_positive c -> some_term_not_in_doc0 c ->
  exists x, ac2_build K (files_of c) = Ok x /\
    forall fuel r r' s t s' t' out out', query_fuel c < fuel -> state2_ok s -> state2_ok t -> both_ways r r' ->
    ac2_request K x fuel r s = Ok s' -> pool_results (s2_pool s') = Ok out ->
    ac2_request K x fuel r' t = Ok t' -> pool_results (s2_pool t') = Ok out' -> includes (limit c (rq_k r)) out' out.
Proof.
  intros K c HK Hwf Hp H0. destruct (ask2 K HK c Hwf Hp H0) as (x & E & H). exists x. split; [exact E|].
  intros fuel r r' s t s' t' out out' Hf Hs Ht Hr E1 E2 E3 E4. pose proof Hr as (H1 & H2 & H3 & H4). rewrite H3.
  refine (related c res2 (found_for2 c) _ (ac2_request K x fuel) state2_ok (fun o => o) r' r _ _ _ t s t' s' out' out Ht Hs E3 E4 E1 E2); [now symmetry| |].
  - intros r1 ts last s1 _ Hq Hs1. exact (H fuel r1 ts last s1 Hf Hq Hs1).
  - intros ts last ts' last' o o' Hq Hq' A A'. rewrite <- H3 in *. exact (both2 c r r' ts' last' ts last o' o Hr Hq' Hq A' A).
Qed.
Theorem C58_type3 : forall K c, containers_ok K -> wf_collection c -> some_kept_doc_positive c ->
  exists x, ac3_build K (files_of c) = Ok x /\
    forall fuel r r' s t s' t' out out', query_fuel c < fuel -> state2_ok s -> state2_ok t -> both_ways r r' ->
    ac3_request K x fuel r s = Ok s' -> pool_results (s2_pool s') = Ok out ->
    ac3_request K x fuel r' t = Ok t' -> pool_results (s2_pool t') = Ok out' -> includes (limit c (rq_k r)) out' out.
Proof.
  intros K c HK Hwf Hp. destruct (ask3 K HK c Hwf Hp) as (x & E & H). exists x. split; [exact E|].
  intros fuel r r' s t s' t' out out' Hf Hs Ht Hr E1 E2 E3 E4. pose proof Hr as (H1 & H2 & H3 & H4). rewrite H3.
  refine (related c res2 (found_for2 c) (fun _ _ _ => reportable2 c) (ac3_request K x fuel) state2_ok (fun o => o) r' r _ _ _ t s t' s' out' out Ht Hs E3 E4 E1 E2); [now symmetry| |].
  - intros r1 ts last s1 _ Hq Hs1. exact (H fuel r1 ts last s1 Hf Hq Hs1).
  - intros ts last ts' last' o o' Hq Hq' A A'. rewrite <- H3 in *. exact (both2 c r r' ts' last' ts last o' o Hr Hq' Hq A' A).
Qed.
Theorem C58_type4_partial : forall (K : bcontainers) c m, bcontainers_ok K -> wf_collection c -> few_postings c -> some_kept_doc_positive c ->
  exists x, ac4_build K m (files_of c) = Ok x /\
    forall fuel r r' s t s' t' out out', query_fuel c < fuel -> state2_ok s -> state2_ok t -> both_ways r r' -> 1 <= rq_k r ->
    (forall ts last, query_split (rq_text r') ts last -> query_exact_by c (found c last) (bi_bounds K (a4_inverted x)) ts) ->
    ac4_request K x fuel r s = Ok s' -> pool_results (s2_pool s') = Ok out ->
    ac4_request K x fuel r' t = Ok t' -> pool_results (s2_pool t') = Ok out' -> includes (rq_k r) out' out.
Proof.
  intros K c m HK Hwf Hfew Hp. destruct (ask4_conj K HK c Hwf Hfew m Hp) as (x & E & H). exists x. split; [exact E|].
  intros fuel r r' s t s' t' out out' Hf Hs Ht Hr Hk Hx E1 E2 E3 E4. pose proof Hr as (H1 & H2 & H3 & H4). rewrite <- (limit_id c (rq_k r) Hk), H3.
  refine (related c res2 (found_for2 c) (fun _ _ _ => reportable2 c) (ac4_request K x fuel) state2_ok (fun o => o) r' r _ _ _ t s t' s' out' out Ht Hs E3 E4 E1 E2); [now symmetry| |].
  - intros r1 ts last s1 Hor Hq Hs1. apply (H fuel r1 ts last s1 Hf Hq Hs1); [destruct Hor as [->| ->]; lia|].
    intros Hc. destruct Hor as [->| ->]; [now apply Hx|congruence].
  - intros ts last ts' last' o o' Hq Hq' A A'. rewrite <- H3 in *. exact (both2 c r r' ts' last' ts last o' o Hr Hq' Hq A' A).
Qed.
Print Assumptions C58_type4_partial.
Print Assumptions C58_type1.
Print Assumptions C58_type2.
Print Assumptions C58_type3.
(** F5: with an index of type 4, "a bc" is a result of prefix search only. *)
Theorem C58_type4_refuted :
  let ask b := {| rq_conj := b; rq_k := 10; rq_text := bytes "a " |} in
  good coll_ex /\ both_ways (ask false) (ask true) /\
  exists o1 o2, run4 100 coll_ex [ask false; ask true] = Ok [o1; o2] /\ In (0, bytes "a bc") o1 /\ ~ includes 10 o2 o1.
Proof.
  cbv zeta. split; [exact coll_ex_good|]. split; [repeat split; reflexivity|]. eexists. eexists. split; [vm_compute; reflexivity|]. split; [now left|].
  intros H. destruct (H 0 (bytes "a bc") (or_introl eq_refl)) as [X|[X _]]; [cbn in X; intuition discriminate|discriminate].
Qed.
Example C58_nonvacuous :
  let ask b := {| rq_conj := b; rq_k := 10; rq_text := bytes "b" |} in
  both_ways (ask false) (ask true) /\
  let outs := Ok [[(1, bytes "b de"); (2, bytes "bc a de"); (7, bytes "b")];
                  [(0, bytes "a bc"); (1, bytes "b de"); (2, bytes "bc a de"); (3, bytes "a b"); (7, bytes "b")]] in
  run1 coll_ex [ask false; ask true] = outs /\ run2 coll_ex [ask false; ask true] = outs /\ run3 coll_ex [ask false; ask true] = outs.
Proof.
  cbv zeta. split; [repeat split; reflexivity|]. split; [vm_compute; reflexivity|]. split; vm_compute; reflexivity.
Qed.
