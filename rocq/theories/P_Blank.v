(** The answers to queries without tokens. *)
From Coq Require Import Sorted Lia.
From Verif Require Import Base S_Order S_Vocab S_Parse M_Parse P_Parse M_Containers S_Containers M_Auto M_Auto1 S_Collection S_Index S_Room S_Found M_Auto2 S_Index2 S_Build M_Blocked S_Blocked.
From Verif Require Import P_Order P_Kept P_ParseFc P_Collection P_Auto1 P_Auto23 P_Auto4 P_Exact S_Meta P_Meta P_Again P_Grow S_Blank.
Local Open Scope nat_scope.

Lemma blank_words q : Forall (eq 32%N) q -> words q [].
Proof. induction 1 as [|x q <- _ IH]; constructor. exact IH. Qed.
Lemma blank_split r : blank r -> query_split (rq_text r) [] [].
Proof. intros H. exists (rq_text r). split; [now rewrite app_nil_r|]. split; [constructor|now apply blank_words]. Qed.

Section Blank.
  Context (c : collection) (Hwf : wf_collection c).

  Lemma found_all w : found c [] w.
  Proof using. split; [|now left]. split; [exists w; reflexivity|]. intros _. now left. Qed.
  Lemma some_word d ids : is_doc c d ids -> exists w rest, words_of c ids = w :: rest.
  Proof using Hwf.
    intros Hd. destruct (wf_comps c Hwf) as (_ & _ & Hne). pose proof (is_doc_in c d ids Hd) as Hin.
    assert (X : ids <> []) by (rewrite Forall_forall in Hne; destruct (Hne ids Hin) as [_ X]; destruct ids; [cbn in X; lia|discriminate]).
    destruct ids as [|x ids]; [congruence|]. now exists (word c x), (words_of c ids).
  Qed.
  Lemma blank_prefix d ids : is_doc c d ids -> prefix_by c (found c []) [] (words_of c ids).
  Proof using Hwf.
    intros Hd. split; [constructor|]. destruct (some_word d ids Hd) as (w & rest & ->). exists w, rest. split; [reflexivity|apply found_all].
  Qed.
  Lemma blank_conj d ids : is_doc c d ids -> conj_by c (found c []) [] (words_of c ids).
  Proof using Hwf.
    intros Hd. split; [intros t []|]. destruct (some_word d ids Hd) as (w & rest & ->). exists w. split; [now left|apply found_all].
  Qed.

  (** The integer dictionary: the first completion is found only if it is the first term alone (F2). *)
  Lemma range_of ids : In ids (comps c) -> Forall (fun x => 1 <= N.to_nat x <= length (terms c)) ids.
  Proof using Hwf. intros Hin. apply Forall_forall. intros y Hy. exact (proj1 (proj2 (ids_range c Hwf ids y Hin Hy))). Qed.
  Lemma first_comp_in d ids : is_doc c d ids -> In (nth 0 (comps c) []) (comps c).
  Proof using. intros Hd. pose proof (is_doc_in c d ids Hd) as Hin. apply nth_In. destruct (comps c); [destruct Hin|cbn; lia]. Qed.
  Lemma blank_found d ids : sizes_ok2 c -> is_doc c d ids ->
    (prefix_found c [] [] (words_of c ids) <-> (words_of c ids = words_of c (nth 0 (comps c) []) -> nth 0 (comps c) [] = [1%N])).
  Proof using Hwf.
    intros Hz Hd. pose proof (is_doc_in c d ids Hd) as Hin. pose proof (first_comp_in d ids Hd) as Hin0. unfold prefix_found. split.
    - intros (_ & _ & H) E. destruct (H E) as (w & Ew & Hl). rewrite E in Ew. cbn [app] in Ew.
      destruct (nth 0 (comps c) []) as [|x [|y l]] eqn:E0; try discriminate. cbn in Ew. injection Ew as Ew.
      pose proof (range_of _ Hin0) as Hr. inversion Hr as [|? ? Hx _]; subst.
      assert (Hw : In (word c x) (terms c)) by (unfold word; apply nth_In; lia).
      destruct (Hl (nth 0 (terms c) []) (first_in c Hwf) (found_all _)) as [X|X].
      + apply (words_inj c Hwf); [exact Hr|constructor; [|constructor]; cbn; lia|]. cbn. f_equal. rewrite <- X. reflexivity.
      + exfalso. destruct (list_eq_dec N.eq_dec (word c x) (nth 0 (terms c) [])) as [Y|Y]; [rewrite Y in X; exact (lex_irrefl _ X)|].
        exact (lex_asym _ _ X (first_lt c _ Hwf Hw Y)).
    - intros H. split; [now apply (blank_prefix d)|]. split; [exists ids; split; [rewrite stored_all by apply Hz; exact Hin|reflexivity]|].
      intros E. rewrite E, (H E). exists (word c 1). split; [reflexivity|]. intros v Hv _. unfold word. cbn [N.to_nat Pos.to_nat Pos.iter_op Nat.sub].
      destruct (list_eq_dec N.eq_dec v (nth 0 (terms c) [])) as [Y|Y]; [now left|right; now apply (first_lt c)].
  Qed.

  Lemma best_of (P : list (list N) -> Prop) k out : (forall d ids, is_doc c d ids -> P (words_of c ids)) -> topk_answer c P (limit c k) out -> best c k out.
  Proof using Hwf. intros H. apply topk_answer_ext. intros ids Hin. destruct (has_doc c Hwf ids Hin) as [d Hd]. pose proof (H d ids Hd). tauto. Qed.
  Lemma best_found k out : sizes_ok2 c -> topk_answer c (prefix_found c [] []) (limit c k) out ->
    (nth 0 (comps c) [] = [1%N] -> best c k out) /\ (nth 0 (comps c) [] <> [1%N] -> best_but_first c k out).
  Proof using Hwf.
    intros Hz A. split; intros E.
    - revert A. apply best_of. intros d ids Hd. apply (blank_found d ids Hz Hd). auto.
    - revert A. apply topk_answer_ext. intros ids Hin. destruct (has_doc c Hwf ids Hin) as [d Hd]. rewrite (blank_found d ids Hz Hd). split; intros H X; [apply E; auto|contradiction].
  Qed.
  Lemma not_over r out : ~ over c r [] [] out.
  Proof using. intros [_ [(_ & _ & (t & [] & _) & _)|((t & [] & _) & _)]]. Qed.
End Blank.

Section Served.
  Context (c : collection) (Hwf : wf_collection c).
  Lemma blank1 K : containers_ok K -> some_doc_positive c -> some_term_not_in_doc0 c -> exists x, ac1_build K (files_of c) = Ok x /\
    forall fuel r s, query_fuel c < fuel -> blank r -> state1_ok s ->
    exists out, best c (rq_k r) out /\ served_with res1 (reportable c) out (ac1_request K x fuel r s).
  Proof using Hwf.
    intros HK Hp H0. destruct (ask1 K HK c Hwf Hp H0) as (x & E & H). exists x. split; [exact E|]. intros fuel r s Hf Hb Hs.
    destruct (H fuel r [] [] s Hf (blank_split r Hb) Hs) as (o & A & G). exists o. split; [|exact G]. revert A. apply best_of; [exact Hwf|].
    intros d ids Hd. unfold found_for1. destruct (rq_conj r); [now apply (blank_conj c Hwf d)|now apply (blank_prefix c Hwf d)].
  Qed.
  Lemma found_listed r out : sizes_ok2 c -> topk_answer c (found_for2 c r [] []) (limit c (rq_k r)) out -> listed c r out.
  Proof using Hwf.
    intros Hz. unfold listed, found_for2. destruct (rq_conj r); [|now apply best_found]. apply best_of; [exact Hwf|].
    intros d ids Hd. now apply (blank_conj c Hwf d).
  Qed.
  Lemma blank2 K : containers_ok K -> sizes_ok2 c -> some_doc_positive c -> some_term_not_in_doc0 c -> exists x, ac2_build K (files_of c) = Ok x /\
    forall fuel r s, query_fuel c < fuel -> blank r -> state2_ok s ->
    exists out, listed c r out /\ served_with res2 (reportable2 c) out (ac2_request K x fuel r s).
  Proof using Hwf.
    intros HK Hz Hp H0. destruct (ask2 K HK c Hwf (kept_positive c Hwf (proj2 Hz) Hp) H0) as (x & E & H). exists x. split; [exact E|]. intros fuel r s Hf Hb Hs.
    destruct (H fuel r [] [] s Hf (blank_split r Hb) Hs) as (o & A & G1 & G2). exists o. split; [now apply found_listed|].
    split; [intros Ho; apply G1; split; [exact Ho|apply not_over]|intros Hn; apply G2; intros [Ho _]; auto].
  Qed.
  Lemma blank3 K : containers_ok K -> sizes_ok2 c -> some_doc_positive c -> exists x, ac3_build K (files_of c) = Ok x /\
    forall fuel r s, query_fuel c < fuel -> blank r -> state2_ok s ->
    exists out, listed c r out /\ served_with res2 (reportable2 c) out (ac3_request K x fuel r s).
  Proof using Hwf.
    intros HK Hz Hp. destruct (ask3 K HK c Hwf (kept_positive c Hwf (proj2 Hz) Hp)) as (x & E & H). exists x. split; [exact E|]. intros fuel r s Hf Hb Hs.
    destruct (H fuel r [] [] s Hf (blank_split r Hb) Hs) as (o & A & G). exists o. split; [now apply found_listed|exact G].
  Qed.
  (** Type 4, conjunctive search: if there is only one block. *)
  Lemma blank4 K m : bcontainers_ok K -> sizes_ok2 c -> few_postings c -> some_doc_positive c -> exists x, ac4_build K m (files_of c) = Ok x /\
    forall fuel r s, query_fuel c < fuel -> blank r -> state2_ok s ->
    (rq_conj r = true -> 1 <= rq_k r /\ forall t1 t2, 1 <= t1 <= t2 -> t2 <= length (terms c) -> same_block (bi_bounds K (a4_inverted x)) t1 t2) ->
    exists out, listed c r out /\ served_with res2 (reportable2 c) out (ac4_request K x fuel r s).
  Proof using Hwf.
    intros HK Hz Hfew Hp. destruct (ask4_texts K HK c Hwf Hfew m (kept_positive c Hwf (proj2 Hz) Hp)) as (x & E & H). exists x. split; [exact E|]. intros fuel r s Hf Hb Hs Hx.
    destruct (proj2 (H fuel r Hf)) with (ts := @nil (list N)) (last := @nil N) (s := s) as (o & A & G); [|now apply blank_split|exact Hs|].
    { intros Hc. destruct (Hx Hc) as [Hk Hy]. split; [exact Hk|]. intros ts last Hq.
      destruct (query_split_exists_unique (rq_text r)) as (u & v & _ & U). destruct (U _ _ Hq) as [-> ->]. destruct (U _ _ (blank_split r Hb)) as [<- <-].
      split; [intros t1 t2 H1 H2 _ _; now apply Hy|]. intros i d ids (t & [] & _). }
    exists o. split; [now apply found_listed|exact G].
  Qed.
End Served.
