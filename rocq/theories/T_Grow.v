(** C61: adding completions to a collection. A suggestion stays one, unless there are k better ones; and an old completion that is suggested was suggested
    before, or there were k better ones. The states [s] and [t] are arbitrary: any histories. *)
From Coq Require Import String.
From Verif Require Import Base S_Order S_Vocab S_Parse M_Heap M_Containers S_Containers M_Auto M_Auto1 S_Collection S_Index S_Found S_Build M_Auto2 S_Index2 M_Blocked S_Blocked S_Meta S_Grow.
From Verif Require Import P_Heap P_Collection P_Auto1 P_Auto23 P_Auto4 P_ListContainers P_Meta P_Again P_Grow S_Json.
From Verif Require Import T_Auto1 T_Auto2 T_Auto4 T_Build.
Local Open Scope nat_scope.

Theorem C61_type1_partial : forall K f c c', containers_ok K -> wf_collection c -> wf_collection c' -> grows f c c' -> sizes_ok c -> sizes_ok c' ->
  some_doc_positive c -> some_term_not_in_doc0 c ->
  some_doc_positive c' -> some_term_not_in_doc0 c' ->
  exists x x', ac1_build K (files_of c) = Ok x /\ ac1_build K (files_of c') = Ok x' /\
    forall fuel r s t s' t' out out', query_fuel c < fuel -> query_fuel c' < fuel -> state1_ok s -> state1_ok t ->
    ac1_request K x fuel r s = Ok s' -> pool_results (s1_pool s') = Ok out ->
    ac1_request K x' fuel r t = Ok t' -> pool_results (s1_pool t') = Ok out' ->
    ((rq_conj r = true -> no_new_token c c' r) ->
     forall d a, In (d, a) out -> suggested (limit c' (rq_k r)) out' (f d) a) /\
    ((forall ts last, query_split (rq_text r) ts last -> first_term_ok c last) ->
     forall d ids a, is_doc c d ids -> In (f d, a) out' -> suggested (limit c (rq_k r)) out d a).
Proof.
  intros K f c c' HK Hwf Hwf' Hg Hz Hz' Hp H0 Hp' H0'. destruct (ask1 K HK c Hwf Hp H0) as (x & E & H). destruct (ask1 K HK c' Hwf' Hp' H0') as (x' & E' & H').
  exists x, x'. split; [exact E|]. split; [exact E'|]. intros fuel r s t s' t' out out' Hf Hf' Hs Ht E1 E2 E3 E4. split.
  - intros Hn d a Hin.
    refine (grown_fwd f c c' Hg res1 state1_ok (found_for1 c r) (found_for1 c' r) (fun _ _ => reportable c) (fun _ _ => reportable c') (ac1_request K x fuel r) (ac1_request K x' fuel r) (limit c (rq_k r)) (limit c' (rq_k r)) (rq_text r) _ _ (fun _ => True) _ s t s' t' out out' d a Hs Ht E1 E2 E3 E4 Hin I);
      [intros ts last s1; now apply H|intros ts last s1; now apply H'|].
    intros d0 ids ts last Hq Hd _. unfold found_for1. destruct (rq_conj r).
    + apply (conj_grow f c c' Hwf Hwf' Hg d0); try exact Hz; try exact Hz'; auto. intros t0 H1 H2. exact (Hn eq_refl ts last t0 Hq H1 H2).
    + now apply (prefix_grow f c c' Hwf Hwf' Hg d0).
  - intros Hft d ids a Hd Hin.
    refine (grown_back f c c' Hwf' Hg res1 state1_ok (found_for1 c r) (found_for1 c' r) (fun _ _ => reportable c) (fun _ _ => reportable c') (ac1_request K x fuel r) (ac1_request K x' fuel r) (limit c (rq_k r)) (limit c' (rq_k r)) (rq_text r) _ _ (fun _ => True) _ s t s' t' out out' d ids a Hs Ht E1 E2 E3 E4 Hd Hin I);
      [intros ts last s1; now apply H|intros ts last s1; now apply H'|].
    intros d0 ids0 ts last Hq Hd0 _. unfold found_for1. destruct (rq_conj r).
    + apply (conj_back f c c' Hwf Hwf' Hg d0); try exact Hz; try exact Hz'; eauto.
    + apply (prefix_back c c' Hwf d0); eauto.
Qed.
Theorem C61_type2_partial : forall K f c c', containers_ok K -> wf_collection c -> wf_collection c' -> grows f c c' -> sizes_ok2 c -> sizes_ok2 c' ->
  some_kept_doc_positive c -> some_term_not_in_doc0 c ->
  some_kept_doc_positive c' -> some_term_not_in_doc0 c' ->
  exists x x', ac2_build K (files_of c) = Ok x /\ ac2_build K (files_of c') = Ok x' /\
    forall fuel r s t s' t' out out', query_fuel c < fuel -> query_fuel c' < fuel -> state2_ok s -> state2_ok t ->
    ac2_request K x fuel r s = Ok s' -> pool_results (s2_pool s') = Ok out ->
    ac2_request K x' fuel r t = Ok t' -> pool_results (s2_pool t') = Ok out' ->
    ((rq_conj r = true -> no_new_token c c' r) ->
     forall d a, In (d, a) out -> (rq_conj r = false -> ~ is_first c' (f d)) -> suggested (limit c' (rq_k r)) out' (f d) a) /\
    ((forall ts last, query_split (rq_text r) ts last -> first_term_ok c last) ->
     forall d ids a, is_doc c d ids -> In (f d, a) out' -> (rq_conj r = false -> ~ is_first c d) -> suggested (limit c (rq_k r)) out d a).
Proof.
  intros K f c c' HK Hwf Hwf' Hg Hz Hz' Hp H0 Hp' H0'. destruct (ask2 K HK c Hwf Hp H0) as (x & E & H). destruct (ask2 K HK c' Hwf' Hp' H0') as (x' & E' & H').
  exists x, x'. split; [exact E|]. split; [exact E'|]. intros fuel r s t s' t' out out' Hf Hf' Hs Ht E1 E2 E3 E4. split.
  - intros Hn d a Hin Hfirst.
    refine (grown_fwd f c c' Hg res2 state2_ok (found_for2 c r) (found_for2 c' r) (fun ts last o => reportable2 c o /\ ~ over c r ts last o) (fun ts last o => reportable2 c' o /\ ~ over c' r ts last o) (ac2_request K x fuel r) (ac2_request K x' fuel r) (limit c (rq_k r)) (limit c' (rq_k r)) (rq_text r) _ _ (fun d => rq_conj r = false -> ~ is_first c' (f d)) _ s t s' t' out out' d a Hs Ht E1 E2 E3 E4 Hin Hfirst);
      [intros ts last s1; now apply H|intros ts last s1; now apply H'|].
    intros d0 ids ts last Hq Hd Hf0. unfold found_for2. destruct (rq_conj r).
    + apply (conj_grow f c c' Hwf Hwf' Hg d0); try exact (proj1 Hz); try exact (proj1 Hz'); auto. intros t0 H1 H2. exact (Hn eq_refl ts last t0 Hq H1 H2).
    + intros [A _]. destruct (Hg d0 ids Hd) as (ids' & Hd' & Ew). rewrite <- Ew. apply (prefix_found_of c' (f d0)); auto. rewrite Ew.
      apply (prefix_grow f c c' Hwf Hwf' Hg d0); auto. exact (proj1 Hz').
  - intros Hft d ids a Hd Hin Hfirst.
    refine (grown_back f c c' Hwf' Hg res2 state2_ok (found_for2 c r) (found_for2 c' r) (fun ts last o => reportable2 c o /\ ~ over c r ts last o) (fun ts last o => reportable2 c' o /\ ~ over c' r ts last o) (ac2_request K x fuel r) (ac2_request K x' fuel r) (limit c (rq_k r)) (limit c' (rq_k r)) (rq_text r) _ _ (fun d => rq_conj r = false -> ~ is_first c d) _ s t s' t' out out' d ids a Hs Ht E1 E2 E3 E4 Hd Hin Hfirst);
      [intros ts last s1; now apply H|intros ts last s1; now apply H'|].
    intros d0 ids0 ts last Hq Hd0 Hf0. unfold found_for2. destruct (rq_conj r).
    + apply (conj_back f c c' Hwf Hwf' Hg d0); try exact (proj1 Hz); try exact (proj1 Hz'); eauto.
    + intros [A _]. apply (prefix_found_of c d0); auto. apply (prefix_back c c' Hwf d0); eauto. exact (proj1 Hz).
Qed.
Theorem C61_type3_partial : forall K f c c', containers_ok K -> wf_collection c -> wf_collection c' -> grows f c c' -> sizes_ok2 c -> sizes_ok2 c' ->
  some_kept_doc_positive c ->
  some_kept_doc_positive c' ->
  exists x x', ac3_build K (files_of c) = Ok x /\ ac3_build K (files_of c') = Ok x' /\
    forall fuel r s t s' t' out out', query_fuel c < fuel -> query_fuel c' < fuel -> state2_ok s -> state2_ok t ->
    ac3_request K x fuel r s = Ok s' -> pool_results (s2_pool s') = Ok out ->
    ac3_request K x' fuel r t = Ok t' -> pool_results (s2_pool t') = Ok out' ->
    ((rq_conj r = true -> no_new_token c c' r) ->
     forall d a, In (d, a) out -> (rq_conj r = false -> ~ is_first c' (f d)) -> suggested (limit c' (rq_k r)) out' (f d) a) /\
    ((forall ts last, query_split (rq_text r) ts last -> first_term_ok c last) ->
     forall d ids a, is_doc c d ids -> In (f d, a) out' -> (rq_conj r = false -> ~ is_first c d) -> suggested (limit c (rq_k r)) out d a).
Proof.
  intros K f c c' HK Hwf Hwf' Hg Hz Hz' Hp Hp'. destruct (ask3 K HK c Hwf Hp) as (x & E & H). destruct (ask3 K HK c' Hwf' Hp') as (x' & E' & H').
  exists x, x'. split; [exact E|]. split; [exact E'|]. intros fuel r s t s' t' out out' Hf Hf' Hs Ht E1 E2 E3 E4. split.
  - intros Hn d a Hin Hfirst.
    refine (grown_fwd f c c' Hg res2 state2_ok (found_for2 c r) (found_for2 c' r) (fun _ _ => reportable2 c) (fun _ _ => reportable2 c') (ac3_request K x fuel r) (ac3_request K x' fuel r) (limit c (rq_k r)) (limit c' (rq_k r)) (rq_text r) _ _ (fun d => rq_conj r = false -> ~ is_first c' (f d)) _ s t s' t' out out' d a Hs Ht E1 E2 E3 E4 Hin Hfirst);
      [intros ts last s1; now apply H|intros ts last s1; now apply H'|].
    intros d0 ids ts last Hq Hd Hf0. unfold found_for2. destruct (rq_conj r).
    + apply (conj_grow f c c' Hwf Hwf' Hg d0); try exact (proj1 Hz); try exact (proj1 Hz'); auto. intros t0 H1 H2. exact (Hn eq_refl ts last t0 Hq H1 H2).
    + intros [A _]. destruct (Hg d0 ids Hd) as (ids' & Hd' & Ew). rewrite <- Ew. apply (prefix_found_of c' (f d0)); auto. rewrite Ew.
      apply (prefix_grow f c c' Hwf Hwf' Hg d0); auto. exact (proj1 Hz').
  - intros Hft d ids a Hd Hin Hfirst.
    refine (grown_back f c c' Hwf' Hg res2 state2_ok (found_for2 c r) (found_for2 c' r) (fun _ _ => reportable2 c) (fun _ _ => reportable2 c') (ac3_request K x fuel r) (ac3_request K x' fuel r) (limit c (rq_k r)) (limit c' (rq_k r)) (rq_text r) _ _ (fun d => rq_conj r = false -> ~ is_first c d) _ s t s' t' out out' d ids a Hs Ht E1 E2 E3 E4 Hd Hin Hfirst);
      [intros ts last s1; now apply H|intros ts last s1; now apply H'|].
    intros d0 ids0 ts last Hq Hd0 Hf0. unfold found_for2. destruct (rq_conj r).
    + apply (conj_back f c c' Hwf Hwf' Hg d0); try exact (proj1 Hz); try exact (proj1 Hz'); eauto.
    + intros [A _]. apply (prefix_found_of c d0); auto. apply (prefix_back c c' Hwf d0); eauto. exact (proj1 Hz).
Qed.
(** Type 4: prefix searches, and conjunctive searches that both indexes answer exactly. *)
Theorem C61_type4_partial : forall (K : bcontainers) f c c' m, bcontainers_ok K -> wf_collection c -> wf_collection c' -> grows f c c' -> sizes_ok2 c -> sizes_ok2 c' ->
  few_postings c -> few_postings c' -> some_kept_doc_positive c -> some_kept_doc_positive c' ->
  exists x x', ac4_build K m (files_of c) = Ok x /\ ac4_build K m (files_of c') = Ok x' /\
    forall fuel r s t s' t' out out', query_fuel c < fuel -> query_fuel c' < fuel -> state2_ok s -> state2_ok t ->
    (rq_conj r = true -> 1 <= rq_k r /\ forall ts last, query_split (rq_text r) ts last ->
      query_exact_by c (found c last) (bi_bounds K (a4_inverted x)) ts /\ query_exact_by c' (found c' last) (bi_bounds K (a4_inverted x')) ts) ->
    ac4_request K x fuel r s = Ok s' -> pool_results (s2_pool s') = Ok out ->
    ac4_request K x' fuel r t = Ok t' -> pool_results (s2_pool t') = Ok out' ->
    ((rq_conj r = true -> no_new_token c c' r) ->
     forall d a, In (d, a) out -> (rq_conj r = false -> ~ is_first c' (f d)) -> suggested (limit c' (rq_k r)) out' (f d) a) /\
    ((forall ts last, query_split (rq_text r) ts last -> first_term_ok c last) ->
     forall d ids a, is_doc c d ids -> In (f d, a) out' -> (rq_conj r = false -> ~ is_first c d) -> suggested (limit c (rq_k r)) out d a).
Proof.
  intros K f c c' m HK Hwf Hwf' Hg Hz Hz' Hfew Hfew' Hp Hp'. destruct (ask4_texts K HK c Hwf Hfew m Hp) as (x & E & H). destruct (ask4_texts K HK c' Hwf' Hfew' m Hp') as (x' & E' & H').
  exists x, x'. split; [exact E|]. split; [exact E'|]. intros fuel r s t s' t' out out' Hf Hf' Hs Ht Hx E1 E2 E3 E4.
  assert (G : forall ts last s, query_split (rq_text r) ts last -> state2_ok s ->
    exists out, topk_answer c (found_for2 c r ts last) (limit c (rq_k r)) out /\ gives res2 (reportable2 c out) out (ac4_request K x fuel r s)).
  { apply (proj2 (H fuel r Hf)). intros Hc. destruct (Hx Hc) as [Hk Hy]. split; [exact Hk|]. intros ts last Hq. now apply Hy. }
  assert (G' : forall ts last s, query_split (rq_text r) ts last -> state2_ok s ->
    exists out, topk_answer c' (found_for2 c' r ts last) (limit c' (rq_k r)) out /\ gives res2 (reportable2 c' out) out (ac4_request K x' fuel r s)).
  { apply (proj2 (H' fuel r Hf')). intros Hc. destruct (Hx Hc) as [Hk Hy]. split; [exact Hk|]. intros ts last Hq. now apply Hy. }
  clear H H'. split.
  - intros Hn d a Hin Hfirst.
    refine (grown_fwd f c c' Hg res2 state2_ok (found_for2 c r) (found_for2 c' r) (fun _ _ => reportable2 c) (fun _ _ => reportable2 c') (ac4_request K x fuel r) (ac4_request K x' fuel r) (limit c (rq_k r)) (limit c' (rq_k r)) (rq_text r) G G'
      (fun d => rq_conj r = false -> ~ is_first c' (f d)) _ s t s' t' out out' d a Hs Ht E1 E2 E3 E4 Hin Hfirst).
    intros d0 ids ts last Hq Hd Hf0. unfold found_for2. destruct (rq_conj r).
    + apply (conj_grow f c c' Hwf Hwf' Hg d0); try exact (proj1 Hz); try exact (proj1 Hz'); auto. intros t0 H1 H2. exact (Hn eq_refl ts last t0 Hq H1 H2).
    + intros [A _]. destruct (Hg d0 ids Hd) as (ids' & Hd' & Ew). rewrite <- Ew. apply (prefix_found_of c' (f d0)); auto. rewrite Ew.
      apply (prefix_grow f c c' Hwf Hwf' Hg d0); auto. exact (proj1 Hz').
  - intros Hft d ids a Hd Hin Hfirst.
    refine (grown_back f c c' Hwf' Hg res2 state2_ok (found_for2 c r) (found_for2 c' r) (fun _ _ => reportable2 c) (fun _ _ => reportable2 c') (ac4_request K x fuel r) (ac4_request K x' fuel r) (limit c (rq_k r)) (limit c' (rq_k r)) (rq_text r) G G'
      (fun d => rq_conj r = false -> ~ is_first c d) _ s t s' t' out out' d ids a Hs Ht E1 E2 E3 E4 Hd Hin Hfirst).
    intros d0 ids0 ts last Hq Hd0 Hf0. unfold found_for2. destruct (rq_conj r).
    + apply (conj_back f c c' Hwf Hwf' Hg d0); try exact (proj1 Hz); try exact (proj1 Hz'); eauto.
    + intros [A _]. apply (prefix_found_of c d0); auto. apply (prefix_back c c' Hwf d0); eauto. exact (proj1 Hz).
Qed.
Print Assumptions C61_type1_partial.
Print Assumptions C61_type2_partial.
Print Assumptions C61_type3_partial.
Print Assumptions C61_type4_partial.

(** [grows], decided for concrete collections. *)
Definition growsb (f : nat -> nat) (c c' : collection) : bool :=
  forallb (fun i => existsb (fun j => (nth j (docs c') 0 =? f (nth i (docs c) 0)) && (if list_eq_dec (list_eq_dec N.eq_dec) (words_of c' (nth j (comps c') [])) (words_of c (nth i (comps c) [])) then true else false))
    (seq 0 (min (length (docs c')) (length (comps c'))))) (seq 0 (length (comps c))).
Lemma growsb_ok f c c' : growsb f c c' = true -> grows f c c'.
Proof.
  intros H d ids (i & Di & Ci). unfold growsb in H. rewrite forallb_forall in H. specialize (H i). rewrite existsb_exists in H.
  destruct H as (j & Hj & E); [apply in_seq; assert (i < length (comps c)) by (apply nth_error_Some; congruence); lia|]. apply in_seq in Hj.
  apply andb_prop in E. destruct E as [E1 E2]. apply Nat.eqb_eq in E1. destruct (list_eq_dec _ _ _) as [E3|]; [|discriminate].
  rewrite (nth_error_nth _ _ 0 Di) in E1. rewrite (nth_error_nth _ _ [] Ci) in E3.
  exists (nth j (comps c') []). split; [|exact E3]. exists j. rewrite <- E1. split; apply nth_error_nth'; lia.
Qed.

(** "a ba" is added to "a", "a b", "b", "bc", with a better score than "a b". The first search: no effect; the second: one result more; the third: with k = 1, the better result replaces the old one. *)
Definition coll_few : collection := {| terms := map bytes ["a"; "b"; "bc"]%string; comps := [[1]; [1; 2]; [2]; [3]]%N; docs := [3; 1; 0; 2]; universe := 4 |}.
Definition coll_more : collection := {| terms := map bytes ["a"; "b"; "ba"; "bc"]%string; comps := [[1]; [1; 2]; [1; 3]; [2]; [4]]%N; docs := [4; 2; 1; 0; 3]; universe := 5 |}.
Example C61_nonvacuous :
  let f d := if d =? 0 then 0 else d + 1 in
  let r b k q := {| rq_conj := b; rq_k := k; rq_text := bytes q |} in
  good coll_few /\ good coll_more /\ grows f coll_few coll_more /\ sizes_ok2 coll_few /\ sizes_ok2 coll_more /\ some_term_not_in_doc0 coll_few /\ some_term_not_in_doc0 coll_more /\
  no_new_token coll_few coll_more (r true 10 "b"%string) /\
  let rs := [r false 10 "bc"; r true 10 "b"; r false 1 "a b"]%string in
  let outs := Ok [[(2, bytes "bc")]; [(0, bytes "b"); (1, bytes "a b"); (2, bytes "bc")]; [(1, bytes "a b")]] in
  let outs' := Ok [[(3, bytes "bc")]; [(0, bytes "b"); (1, bytes "a ba"); (2, bytes "a b"); (3, bytes "bc")]; [(1, bytes "a ba")]] in
  run1 coll_few rs = outs /\ run2 coll_few rs = outs /\ run3 coll_few rs = outs /\ run1 coll_more rs = outs' /\ run2 coll_more rs = outs' /\ run3 coll_more rs = outs'.
Proof.
  cbv zeta.
  split; [split; [apply wf_collectionb_ok; reflexivity|]; split; [split; discriminate|]; split; [reflexivity|]; exists 1; cbn; auto|].
  split; [split; [apply wf_collectionb_ok; reflexivity|]; split; [split; discriminate|]; split; [reflexivity|]; exists 1; cbn; auto|].
  split; [now apply growsb_ok|]. split; [split; discriminate|]. split; [split; discriminate|].
  split; [exists 1; split; [cbn; lia|]; intros H; vm_compute in H; repeat (destruct H as [H|H]; try discriminate H); exact H|].
  split; [exists 1; split; [cbn; lia|]; intros H; vm_compute in H; repeat (destruct H as [H|H]; try discriminate H); exact H|].
  split.
  { intros ts last t Hq Ht. assert (Hq' : query_split (bytes "b") [] (bytes "b")) by (exists []; repeat split; repeat constructor; discriminate).
    destruct (P_ParseFc.query_split_exists_unique (bytes "b")) as (u & v & _ & U). destruct (U _ _ Hq) as [-> ->]. destruct (U _ _ Hq') as [<- _]. destruct Ht. }
  repeat (split; [vm_compute; reflexivity|]). vm_compute. reflexivity.
Qed.

(** A token of the query that is new: before, it is ignored; afterwards, it has to be in the completion. So "b" and "bc" are not found any more for "ba b". *)
Theorem C61_new_token_refuted :
  let f d := if d =? 0 then 0 else d + 1 in
  let r := {| rq_conj := true; rq_k := 10; rq_text := bytes "ba b" |} in
  good coll_few /\ good coll_more /\ grows f coll_few coll_more /\
  let outs := Ok [[(0, bytes "b"); (1, bytes "a b"); (2, bytes "bc")]] in let outs' := Ok [[(1, bytes "a ba")]] in
  run1 coll_few [r] = outs /\ run2 coll_few [r] = outs /\ run3 coll_few [r] = outs /\ run1 coll_more [r] = outs' /\ run2 coll_more [r] = outs' /\ run3 coll_more [r] = outs'.
Proof.
  cbv zeta. split; [apply C61_nonvacuous|]. split; [apply C61_nonvacuous|]. split; [apply C61_nonvacuous|].
  repeat (split; [vm_compute; reflexivity|]). vm_compute. reflexivity.
Qed.
(** F1: the old completion "ab" is found for "a" only after "aa" has been added. F2: the first completion "b1" is not found any more for "b" after "b1 a b0" has been added. *)
Theorem C61_first_refuted :
  let c t := {| terms := map bytes t; comps := [[1]; [2]]%N; docs := [0; 1]; universe := 2 |} in
  let c1 := c ["ab"; "b"]%string in let c2 := {| terms := map bytes ["aa"; "ab"; "b"]%string; comps := [[1]; [2]; [3]]%N; docs := [2; 0; 1]; universe := 3 |} in
  let c3 := {| terms := map bytes ["a"; "b1"]%string; comps := [[2]; [2; 1]]%N; docs := [0; 1]; universe := 2 |} in
  let c4 := {| terms := map bytes ["a"; "b0"; "b1"]%string; comps := [[3]; [3; 1]; [3; 1; 2]]%N; docs := [0; 1; 2]; universe := 3 |} in
  let r q := {| rq_conj := false; rq_k := 10; rq_text := bytes q |} in
  (good c1 /\ good c2 /\ grows (fun d => d) c1 c2 /\ run1 c1 [r "a"%string] = Ok [[]] /\ run1 c2 [r "a"%string] = Ok [[(0, bytes "ab")]]) /\
  (good c3 /\ good c4 /\ grows (fun d => d) c3 c4 /\ run2 c3 [r "b"%string] = Ok [[(0, bytes "b1"); (1, bytes "b1 a")]] /\ run2 c4 [r "b"%string] = Ok [[(1, bytes "b1 a"); (2, bytes "b1 a b0")]]).
Proof.
  cbv zeta. split.
  - split; [split; [apply wf_collectionb_ok; reflexivity|]; split; [split; discriminate|]; split; [reflexivity|]; exists 1; cbn; auto|].
    split; [split; [apply wf_collectionb_ok; reflexivity|]; split; [split; discriminate|]; split; [reflexivity|]; exists 1; cbn; auto|].
    split; [now apply growsb_ok|]. split; vm_compute; reflexivity.
  - split; [split; [apply wf_collectionb_ok; reflexivity|]; split; [split; discriminate|]; split; [reflexivity|]; exists 1; cbn; auto|].
    split; [split; [apply wf_collectionb_ok; reflexivity|]; split; [split; discriminate|]; split; [reflexivity|]; exists 1; cbn; auto|].
    split; [now apply growsb_ok|]. split; vm_compute; reflexivity.
Qed.
