(** Reported strings; the two directions between doc ids and positions. *)
From Verif Require Import Base S_Order S_Vocab S_Completions S_Containers M_Containers P_Containers M_Auto S_Collection P_Collection S_Index P_Pool.
From Verif Require Import P_Heap M_Auto1 P_Query P_Auto1 M_Auto2 S_Index2 S_Found S_Build P_Kept P_Core2 P_Auto23.
Local Open Scope nat_scope.

Lemma answer_of_docs c ds idss : wf_collection c -> Forall2 (is_doc c) ds idss ->
  answer_of c ds = combine ds (map (text c) idss) /\ Forall (has_doc c) ds /\ Forall (fun d => d < universe c) ds.
Proof.
  intros Hwf H. induction H as [|d ids ds idss Hd H (A & B & C)]; [repeat split; constructor|].
  pose proof (is_doc_fwd c Hwf d ids Hd) as E. cbn. unfold answer_of in *. cbn. rewrite A, E. split; [reflexivity|].
  split; constructor; auto.
  - unfold has_doc. now rewrite E.
  - destruct Hd as (i & Hi & _). pose proof (wf_docs_lt c Hwf) as Hl. rewrite Forall_forall in Hl. apply Hl. eapply nth_error_In; eauto.
Qed.

Lemma docs_of c ds idss : Forall2 (is_doc c) ds idss ->
  forall d s, In (d, s) (combine ds (map (text c) idss)) -> exists ids, is_doc c d ids /\ True /\ s = text c ids.
Proof.
  intros H. induction H as [|d0 ids ds idss Hd H IH]; cbn; [tauto|]. intros d s [E|Hin]; [|now apply IH].
  injection E as <- <-. eauto.
Qed.

Lemma ac1_strings_any : forall K c,
  containers_ok K -> wf_collection c -> some_doc_positive c -> some_term_not_in_doc0 c ->
  exists x, ac1_build K (files_of c) = Ok x /\
    forall ds idss scores data,
    Forall2 (is_doc c) ds idss -> length scores = MAX_K -> firstn (length ds) scores = ds -> length data = POOL_SIZE ->
    let r := ac1_extract K x (length ds) {| p_scores := scores; p_offsets := [0]; p_data := data |} in
    (reportable c (combine ds (map (text c) idss)) -> exists p, r = Ok p /\ pool_results p = Ok (combine ds (map (text c) idss))) /\
    (~ reportable c (combine ds (map (text c) idss)) -> r = UB).
Proof.
  intros K c HK Hwf Hp H0. destruct (ac1_build_ok K HK c Hwf Hp H0) as (x & at_ & E & Hx). exists x. split; [exact E|].
  intros ds idss scores data HF Hs Hf Hd r. destruct (answer_of_docs c ds idss Hwf HF) as (A & B & C). rewrite <- A in *.
  set (p0 := {| p_scores := scores; p_offsets := [0]; p_data := data |}).
  assert (Hp0 : pool_ok p0) by (split; assumption).
  destruct (ac1_extract_exact K c Hwf x at_ Hx (query_fuel c + 1) ltac:(lia) p0 ds scores Hp0 Hf Hs C)
    as (Hok & Hub). split; [|exact Hub]. intros Hfit. destruct (Hok Hfit) as (p & E1 & _ & E2). eauto.
Qed.
Lemma ac1_strings : forall K c,
  containers_ok K -> wf_collection c -> sizes_ok c -> some_doc_positive c -> some_term_not_in_doc0 c ->
  exists x, ac1_build K (files_of c) = Ok x /\
    forall ds idss scores data,
    Forall2 (is_doc c) ds idss -> length scores = MAX_K -> firstn (length ds) scores = ds -> length data = POOL_SIZE ->
    fits_pool (combine ds (map (text c) idss)) ->
    exists p, ac1_extract K x (length ds) {| p_scores := scores; p_offsets := [0]; p_data := data |} = Ok p /\
      pool_results p = Ok (combine ds (map (text c) idss)).
Proof.
  intros K c HK Hwf H17 Hp H0. destruct (ac1_strings_any K c HK Hwf Hp H0) as (x & E & H). exists x. split; [exact E|].
  intros ds idss scores data HF Hs Hf Hd Hfit. apply (H ds idss scores data); auto. refine (reportable_all c Hwf (fun _ => True) _ H17 (docs_of c ds idss HF) Hfit _).
  rewrite combine_length, <- Hf, firstn_length. lia.
Qed.

Lemma core_strings_any : forall K c,
  containers_ok K -> wf_collection c -> some_kept_doc_positive c ->
  exists x, core_build K (files_of c) = Ok x /\
    forall ds idss scores s,
    Forall2 (is_doc c) ds idss -> length scores = MAX_K -> firstn (length ds) scores = ds -> state2_ok s ->
    p_offsets (s2_pool s) = [0] ->
    (reportable2 c (combine ds (map (text c) idss)) ->
     exists s', finish x (length ds) scores s = Ok s' /\ pool_results (s2_pool s') = Ok (combine ds (map (text c) idss))) /\
    (~ reportable2 c (combine ds (map (text c) idss)) -> finish x (length ds) scores s = UB).
Proof.
  intros K c HK Hwf Hp. destruct (core_build_ok K HK c Hwf Hp) as (x & E & Hx). exists x. split; [exact E|].
  intros ds idss scores s HF Hs Hf Hst Ho. destruct (answer_of_docs c ds idss Hwf HF) as (A & B & C). rewrite <- A in *.
  destruct (finish_ok c Hwf x Hx ds scores s Hst Ho Hf Hs B) as [Hok Hub]. split; [|exact Hub]. intros Hfit. destruct (Hok Hfit) as (s' & E1 & E2 & _). eauto.
Qed.
Lemma core_strings : forall K c,
  containers_ok K -> wf_collection c -> sizes_ok2 c -> some_doc_positive c ->
  exists x, core_build K (files_of c) = Ok x /\
    forall ds idss scores s,
    Forall2 (is_doc c) ds idss -> length scores = MAX_K -> firstn (length ds) scores = ds -> state2_ok s ->
    p_offsets (s2_pool s) = [0] -> fits_pool (combine ds (map (text c) idss)) ->
    exists s', finish x (length ds) scores s = Ok s' /\
      pool_results (s2_pool s') = Ok (combine ds (map (text c) idss)).
Proof.
  intros K c HK Hwf H17 Hp. destruct (core_strings_any K c HK Hwf (kept_positive c Hwf (proj2 H17) Hp)) as (x & E & H). exists x. split; [exact E|].
  intros ds idss scores s HF Hs Hf Hst Ho Hfit. apply (H ds idss scores s); auto. refine (reportable2_all c Hwf (fun _ => True) _ H17 (docs_of c ds idss HF) Hfit _).
  rewrite combine_length, <- Hf, firstn_length. lia.
Qed.

Lemma core_bijection_any : forall K c,
  containers_ok K -> wf_collection c -> some_kept_doc_positive c ->
  exists x, core_build K (files_of c) = Ok x /\ ul_size (co_docs x) = length (comps c) /\
    forall i, i < length (stored (comps c)) ->
    exists d, nth_error (docs c) i = Some d /\ ul_acc (co_docs x) i = Ok d /\ co_lexid x d = Ok (N.of_nat i).
Proof.
  intros K c HK Hwf Hp. destruct (core_build_ok K HK c Hwf Hp) as (x & E & Hx). exists x. split; [exact E|].
  destruct (c2_docs c x Hx) as (Hacc & Hsize & _). pose proof (wf_docs_len c Hwf) as Hl.
  pose proof (stored_le (docs c)) as Hle. assert (Hlen : length (kept_docs c) = length (docs c)).
  { unfold kept_docs. rewrite app_length, repeat_length. lia. }
  split; [rewrite Hsize, Hlen; exact Hl|]. intros i Hi.
  assert (Hi2 : i < length (stored (docs c))) by (rewrite stored_length in Hi; rewrite stored_length, Hl; exact Hi).
  destruct (get_some (docs c) i) as (d & Hd & _); [lia|]. exists d. split; [exact Hd|].
  pose proof (stored_nth_error_lt (docs c) i d Hd Hi2) as Hd'. split; [|exact (c2_lexid c x Hx i d Hd')].
  rewrite Hacc by lia. f_equal. unfold kept_docs. rewrite app_nth1 by exact Hi2. now apply nth_error_nth.
Qed.
Lemma core_bijection : forall K c,
  containers_ok K -> wf_collection c -> sizes_ok2 c -> some_doc_positive c ->
  exists x, core_build K (files_of c) = Ok x /\ ul_size (co_docs x) = length (comps c) /\
    forall i, i < length (comps c) ->
    exists d, nth_error (docs c) i = Some d /\ ul_acc (co_docs x) i = Ok d /\ co_lexid x d = Ok (N.of_nat i).
Proof.
  intros K c HK Hwf H17 Hp. pose proof (core_bijection_any K c HK Hwf (kept_positive c Hwf (proj2 H17) Hp)) as H.
  rewrite (stored_all (comps c)) in H; [exact H|apply H17].
Qed.
