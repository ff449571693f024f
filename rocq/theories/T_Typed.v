(** C71: every completion can be found by typing it out. The state [s] is arbitrary: any history. *)
From Coq Require Import String.
From Verif Require Import Base S_Order S_Vocab S_Parse M_Heap M_Containers S_Containers M_Auto M_Auto1 S_Collection S_Index S_Found S_Build M_Auto2 S_Index2 M_Blocked S_Blocked S_Meta S_Starts S_Typed.
From Verif Require Import P_ParseFc P_Heap P_Collection P_Auto1 P_Auto23 P_Auto4 P_ListContainers P_Meta P_Again P_Starts P_Typed S_Json.
From Verif Require Import T_Auto1 T_Auto2 T_Auto4 T_Build.
Local Open Scope nat_scope.

(** A completion typed out is suggested, unless there are k better suggestions; both searches, every k, also for the first term and the first completion (F1 and F2 need a query
    that stops before the end of a word or a completion), and for every size of the collection, if the dictionaries have kept the completion (F23). *)
Theorem C71_type1 : forall K c, containers_ok K -> wf_collection c -> no_spaces c -> some_doc_positive c -> some_term_not_in_doc0 c ->
  exists x, ac1_build K (files_of c) = Ok x /\
    forall fuel r d ids s s' out, query_fuel c < fuel -> state1_ok s -> typed_out c r d ids -> Forall (known c) (words_of c ids) -> 
    ac1_request K x fuel r s = Ok s' -> pool_results (s1_pool s') = Ok out -> suggested (limit c (rq_k r)) out d (text c ids).
Proof.
  intros K c HK Hwf Hsp Hp H0. destruct (ask1 K HK c Hwf Hp H0) as (x & E & H). exists x. split; [exact E|].
  intros fuel r d ids s s' out Hf Hs Ht Hk E1 E2. destruct (query_split_exists_unique (rq_text r)) as (ts & last & Hq & _).
  destruct (H fuel r ts last s Hf Hq Hs) as (o & A & G). rewrite (gives_results res1 _ _ _ _ _ G E1 E2). now apply (typed1 c Hwf Hsp r d ids ts last).
Qed.
Theorem C71_type2 : forall K c, containers_ok K -> wf_collection c -> no_spaces c -> some_kept_doc_positive c -> some_term_not_in_doc0 c ->
  exists x, ac2_build K (files_of c) = Ok x /\
    forall fuel r d ids s s' out, query_fuel c < fuel -> state2_ok s -> typed_out c r d ids -> Forall (known c) (words_of c ids) -> In d (stored (docs c)) -> 
    ac2_request K x fuel r s = Ok s' -> pool_results (s2_pool s') = Ok out -> suggested (limit c (rq_k r)) out d (text c ids).
Proof.
  intros K c HK Hwf Hsp Hp H0. destruct (ask2 K HK c Hwf Hp H0) as (x & E & H). exists x. split; [exact E|].
  intros fuel r d ids s s' out Hf Hs Ht Hk Hd E1 E2. destruct (query_split_exists_unique (rq_text r)) as (ts & last & Hq & _).
  destruct (H fuel r ts last s Hf Hq Hs) as (o & A & G). rewrite (gives_results res2 _ _ _ _ _ G E1 E2). now apply (typed2 c Hwf Hsp r d ids ts last).
Qed.
Theorem C71_type3 : forall K c, containers_ok K -> wf_collection c -> no_spaces c -> some_kept_doc_positive c ->
  exists x, ac3_build K (files_of c) = Ok x /\
    forall fuel r d ids s s' out, query_fuel c < fuel -> state2_ok s -> typed_out c r d ids -> Forall (known c) (words_of c ids) -> In d (stored (docs c)) -> 
    ac3_request K x fuel r s = Ok s' -> pool_results (s2_pool s') = Ok out -> suggested (limit c (rq_k r)) out d (text c ids).
Proof.
  intros K c HK Hwf Hsp Hp. destruct (ask3 K HK c Hwf Hp) as (x & E & H). exists x. split; [exact E|].
  intros fuel r d ids s s' out Hf Hs Ht Hk Hd E1 E2. destruct (query_split_exists_unique (rq_text r)) as (ts & last & Hq & _).
  destruct (H fuel r ts last s Hf Hq Hs) as (o & A & G). rewrite (gives_results res2 _ _ _ _ _ G E1 E2). now apply (typed2 c Hwf Hsp r d ids ts last).
Qed.
(** Type 4. Missing: conjunctive searches that are not answered exactly (F5-F8). *)
Theorem C71_type4_partial : forall (K : bcontainers) c m, bcontainers_ok K -> wf_collection c -> no_spaces c -> few_postings c -> some_kept_doc_positive c ->
  exists x, ac4_build K m (files_of c) = Ok x /\
    forall fuel r d ids s s' out, query_fuel c < fuel -> state2_ok s -> typed_out c r d ids -> Forall (known c) (words_of c ids) -> In d (stored (docs c)) ->
    (rq_conj r = true -> 1 <= rq_k r /\ forall ts last, query_split (rq_text r) ts last -> query_exact_by c (found c last) (bi_bounds K (a4_inverted x)) ts) ->
    ac4_request K x fuel r s = Ok s' -> pool_results (s2_pool s') = Ok out -> suggested (limit c (rq_k r)) out d (text c ids).
Proof.
  intros K c m HK Hwf Hsp Hfew Hp. destruct (ask4_texts K HK c Hwf Hfew m Hp) as (x & E & H). exists x. split; [exact E|].
  intros fuel r d ids s s' out Hf Hs Ht Hk Hd Hx E1 E2. destruct (query_split_exists_unique (rq_text r)) as (ts & last & Hq & _).
  destruct (proj2 (H fuel r Hf) Hx ts last s Hq Hs) as (o & A & G). rewrite (gives_results res2 _ _ _ _ _ G E1 E2). now apply (typed2 c Hwf Hsp r d ids ts last).
Qed.

(** If no other completion starts with the text, prefix search for it has exactly this one result. Every k. Missing: sizes affected by F23. *)
Theorem C71_type1_alone_partial : forall K c, containers_ok K -> wf_collection c -> no_spaces c -> sizes_ok c -> some_doc_positive c -> some_term_not_in_doc0 c ->
  exists x, ac1_build K (files_of c) = Ok x /\
    forall fuel k q d ids s, query_fuel c < fuel -> state1_ok s -> typed_out c {| rq_conj := false; rq_k := k; rq_text := q |} d ids -> continued_by_none c d ids ->
    exists s', ac1_prefix_topk K x fuel k q s = Ok s' /\ pool_results (s1_pool s') = Ok [(d, text c ids)].
Proof.
  intros K c HK Hwf Hsp H17 Hp H0. destruct (ask1 K HK c Hwf Hp H0) as (x & E & H). exists x. split; [exact E|].
  intros fuel k q d ids s Hf Hs Ht Hn. pose proof (text_fits c Hwf d ids (proj1 Ht)) as Hl. set (r := {| rq_conj := false; rq_k := k; rq_text := q |}) in *. destruct (query_split_exists_unique q) as (ts & last & Hq & _).
  destruct (H fuel r ts last s Hf Hq Hs) as (o & A & G). pose proof (typed1 c Hwf Hsp r d ids ts last _ o Ht Hq (known_words c Hwf d ids H17 (proj1 Ht)) A) as Hsug.
  pose proof (alone c (prefix_by c (found c last) ts) r d ids ts last _ o Ht Hq Hn (limit_pos c k d ids (proj1 Ht)) (by_match c ts last) A Hsug) as ->.
  assert (R : reportable c [(d, text c ids)]).
  { apply (reportable_all c Hwf (fun _ => True)); [exact H17| |unfold fits_pool; cbn [map snd concat]; rewrite app_nil_r; exact Hl|cbn; unfold MAX_K; lia].
    intros d' s' [X|[]]. injection X as <- <-. exists ids. split; [exact (proj1 Ht)|auto]. }
  apply G; exact R.
Qed.
Theorem C71_type2_alone_partial : forall K c, containers_ok K -> wf_collection c -> no_spaces c -> sizes_ok2 c -> some_doc_positive c -> some_term_not_in_doc0 c ->
  exists x, ac2_build K (files_of c) = Ok x /\
    forall fuel k q d ids s, query_fuel c < fuel -> state2_ok s -> typed_out c {| rq_conj := false; rq_k := k; rq_text := q |} d ids -> continued_by_none c d ids ->
    exists s', ac2_prefix_topk K x fuel k q s = Ok s' /\ pool_results (s2_pool s') = Ok [(d, text c ids)].
Proof.
  intros K c HK Hwf Hsp H17 Hp H0. destruct (ask2 K HK c Hwf (kept_positive c Hwf (proj2 H17) Hp) H0) as (x & E & H). exists x. split; [exact E|].
  intros fuel k q d ids s Hf Hs Ht Hn. pose proof (text_fits c Hwf d ids (proj1 Ht)) as Hl. set (r := {| rq_conj := false; rq_k := k; rq_text := q |}) in *. destruct (query_split_exists_unique q) as (ts & last & Hq & _).
  destruct (H fuel r ts last s Hf Hq Hs) as (o & A & G). pose proof (typed2 c Hwf Hsp r d ids ts last _ o Ht Hq (known_words c Hwf d ids (proj1 H17) (proj1 Ht)) (stored_docs c Hwf d ids H17 (proj1 Ht)) A) as Hsug.
  pose proof (alone c (prefix_found c ts last) r d ids ts last _ o Ht Hq Hn (limit_pos c k d ids (proj1 Ht)) (found_match c ts last) A Hsug) as ->.
  assert (R : reportable2 c [(d, text c ids)]).
  { apply (reportable2_all c Hwf (fun _ => True)); [exact H17| |unfold fits_pool; cbn [map snd concat]; rewrite app_nil_r; exact Hl|cbn; unfold MAX_K; lia].
    intros d' s' [X|[]]. injection X as <- <-. exists ids. split; [exact (proj1 Ht)|auto]. }
  apply G; split; [|intros [X _]; discriminate X]; exact R.
Qed.
Theorem C71_type3_alone_partial : forall K c, containers_ok K -> wf_collection c -> no_spaces c -> sizes_ok2 c -> some_doc_positive c ->
  exists x, ac3_build K (files_of c) = Ok x /\
    forall fuel k q d ids s, query_fuel c < fuel -> state2_ok s -> typed_out c {| rq_conj := false; rq_k := k; rq_text := q |} d ids -> continued_by_none c d ids ->
    exists s', ac3_prefix_topk K x fuel k q s = Ok s' /\ pool_results (s2_pool s') = Ok [(d, text c ids)].
Proof.
  intros K c HK Hwf Hsp H17 Hp. destruct (ask3 K HK c Hwf (kept_positive c Hwf (proj2 H17) Hp)) as (x & E & H). exists x. split; [exact E|].
  intros fuel k q d ids s Hf Hs Ht Hn. pose proof (text_fits c Hwf d ids (proj1 Ht)) as Hl. set (r := {| rq_conj := false; rq_k := k; rq_text := q |}) in *. destruct (query_split_exists_unique q) as (ts & last & Hq & _).
  destruct (H fuel r ts last s Hf Hq Hs) as (o & A & G). pose proof (typed2 c Hwf Hsp r d ids ts last _ o Ht Hq (known_words c Hwf d ids (proj1 H17) (proj1 Ht)) (stored_docs c Hwf d ids H17 (proj1 Ht)) A) as Hsug.
  pose proof (alone c (prefix_found c ts last) r d ids ts last _ o Ht Hq Hn (limit_pos c k d ids (proj1 Ht)) (found_match c ts last) A Hsug) as ->.
  assert (R : reportable2 c [(d, text c ids)]).
  { apply (reportable2_all c Hwf (fun _ => True)); [exact H17| |unfold fits_pool; cbn [map snd concat]; rewrite app_nil_r; exact Hl|cbn; unfold MAX_K; lia].
    intros d' s' [X|[]]. injection X as <- <-. exists ids. split; [exact (proj1 Ht)|auto]. }
  apply G; exact R.
Qed.
Theorem C71_type4_alone_partial : forall (K : bcontainers) c m, bcontainers_ok K -> wf_collection c -> no_spaces c -> sizes_ok2 c -> few_postings c -> some_doc_positive c ->
  exists x, ac4_build K m (files_of c) = Ok x /\
    forall fuel k q d ids s, query_fuel c < fuel -> state2_ok s -> typed_out c {| rq_conj := false; rq_k := k; rq_text := q |} d ids -> continued_by_none c d ids ->
    exists s', ac4_prefix_topk K x fuel k q s = Ok s' /\ pool_results (s2_pool s') = Ok [(d, text c ids)].
Proof.
  intros K c m HK Hwf Hsp H17 Hfew Hp. destruct (ask4 K HK c Hwf Hfew m (kept_positive c Hwf (proj2 H17) Hp)) as (x & E & H). exists x. split; [exact E|].
  intros fuel k q d ids s Hf Hs Ht Hn. pose proof (text_fits c Hwf d ids (proj1 Ht)) as Hl. set (r := {| rq_conj := false; rq_k := k; rq_text := q |}) in *. destruct (query_split_exists_unique q) as (ts & last & Hq & _).
  destruct (H fuel r ts last s Hf Hq Hs) as (o & A & G). pose proof (typed2 c Hwf Hsp r d ids ts last _ o Ht Hq (known_words c Hwf d ids (proj1 H17) (proj1 Ht)) (stored_docs c Hwf d ids H17 (proj1 Ht)) A) as Hsug.
  pose proof (alone c (prefix_found c ts last) r d ids ts last _ o Ht Hq Hn (limit_pos c k d ids (proj1 Ht)) (found_match c ts last) A Hsug) as ->.
  assert (R : reportable2 c [(d, text c ids)]).
  { apply (reportable2_all c Hwf (fun _ => True)); [exact H17| |unfold fits_pool; cbn [map snd concat]; rewrite app_nil_r; exact Hl|cbn; unfold MAX_K; lia].
    intros d' s' [X|[]]. injection X as <- <-. exists ids. split; [exact (proj1 Ht)|auto]. }
  apply G; exact R.
Qed.

Definition all_typed := (C71_type1, C71_type2, C71_type3, C71_type4_partial, C71_type1_alone_partial, C71_type2_alone_partial, C71_type3_alone_partial, C71_type4_alone_partial).
Print Assumptions all_typed.

(** Every completion of [coll_ex], typed out with more spaces than needed; "a b" is the first completion, "a bc" continues it, and "b" is displaced by "b de" for k = 1. *)
Example C71_nonvacuous :
  let ask b k q := {| rq_conj := b; rq_k := k; rq_text := bytes q |} in
  wf_collection coll_ex /\ no_spaces coll_ex /\ sizes_ok2 coll_ex /\ few_postings coll_ex /\ some_doc_positive coll_ex /\ some_term_not_in_doc0 coll_ex /\
  typed_out coll_ex (ask false 10 " bc  a de"%string) 2 [3; 1; 4]%N /\ Forall (known coll_ex) (words_of coll_ex [3; 1; 4]%N) /\ continued_by_none coll_ex 2 [3; 1; 4]%N /\
  let rs := [ask false 10 " bc  a de"; ask false 10 "a b"; ask true 10 " a b"; ask false 1 "b"]%string in
  let outs := Ok [[(2, bytes "bc a de")]; [(0, bytes "a bc"); (3, bytes "a b")]; [(0, bytes "a bc"); (2, bytes "bc a de"); (3, bytes "a b")]; [(1, bytes "b de")]] in
  run1 coll_ex rs = outs /\ run2 coll_ex rs = outs /\ run3 coll_ex rs = outs.
Proof.
  cbv zeta. split; [exact (proj1 coll_ex_good)|]. split; [repeat constructor; discriminate|]. split; [split; discriminate|]. split; [reflexivity|]. split; [exists 3; cbn; auto|].
  split; [exists 2; split; [cbn; lia|]; intros H; vm_compute in H; repeat (destruct H as [H|H]; try discriminate H); exact H|].
  split; [split; [exists 4; split; reflexivity|reflexivity]|]. split; [repeat constructor; vm_compute; tauto|].
  split; [|split; [vm_compute; reflexivity|split; vm_compute; reflexivity]].
  intros d ids (i & Hi & Hc) (y & E). do 6 (destruct i as [|i]; [cbn in Hi, Hc; injection Hi as <-; injection Hc as <-; first [reflexivity|vm_compute in E; discriminate E]|]). destruct i; discriminate.
Qed.

(** F5: with an index of type 4, conjunctive search for the completion "a bc", typed out, does not find it. *)
Theorem C71_type4_refuted :
  good coll_ex /\ no_spaces coll_ex /\ typed_out coll_ex (conj10 (bytes "a bc"%string)) 0 [1; 3]%N /\
  run4 100 coll_ex [conj10 (bytes "a bc"%string)] = Ok [[(2, bytes "bc a de"%string)]].
Proof.
  split; [exact coll_ex_good|]. split; [repeat constructor; discriminate|]. split; [split; [exists 1; split; reflexivity|reflexivity]|]. vm_compute. reflexivity.
Qed.
(** F23: a term that the dictionary has lost cannot be found even if it is typed out: "b", one of 17 completions of one letter each. *)
Theorem C71_lost_refuted :
  let ask b := {| rq_conj := b; rq_k := 10; rq_text := bytes "b"%string |} in
  wf_collection coll_17 /\ no_spaces coll_17 /\ some_doc_positive coll_17 /\ some_term_not_in_doc0 coll_17 /\
  forall b, typed_out coll_17 (ask b) 1 [2]%N /\ run1 coll_17 [ask b] = Ok [[]].
Proof.
  cbv zeta. split; [apply wf_collectionb_ok; vm_compute; reflexivity|]. split; [repeat constructor; discriminate|]. split; [exists 1; cbn; auto|].
  split; [exists 2; split; [cbn; lia|]; intros H; vm_compute in H; repeat (destruct H as [H|H]; try discriminate H); exact H|].
  intros b. split; [split; [exists 1; split; reflexivity|reflexivity]|]. destruct b; vm_compute; reflexivity.
Qed.
Definition all_untyped := (C71_type4_refuted, C71_lost_refuted).
Print Assumptions all_untyped.
