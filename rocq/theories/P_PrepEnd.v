(** Proofs: answers over a collection are answers over the input it was made from. *)
From Coq Require Import Sorted.
From Verif Require Import Base S_Python S_Order P_Order S_Vocab S_Completions S_Parse S_Text S_Iter S_Trie S_Collection M_Auto S_Index M_Input S_Files S_Prep M_Prep P_PrepText P_PrepDict P_PrepRows P_Prep.
Local Open Scope nat_scope.
Section Python.
Context {py : python}.

Lemma preprocess_ok es input : valid_input es -> is_input es input ->
  exists t c, preprocess input = Ok t /\ wf_collection c /\ describes es c /\ holds_collection c t /\ numbers (stats_of es c) (t_stats t).
Proof.
  intros Hv (ids & Hids & Htab). destruct (preprocess_coll es ids input Hv Hids Htab) as (t & E & H). exists t, (coll es ids).
  split; [exact E|]. split; [now apply coll_wf|]. split; [now apply coll_describes|exact H].
Qed.

(** The collection is determined by the input. *)
Lemma map_inj_in {A B} (f : A -> B) (P : A -> Prop) : (forall x y, P x -> P y -> f x = f y -> x = y) ->
  forall l m, Forall P l -> Forall P m -> map f l = map f m -> l = m.
Proof.
  intros Hf. induction l as [|x l IH]; intros [|y m] Hl Hm E; try discriminate; [reflexivity|]. inversion Hl; inversion Hm; subst. cbn [map] in E. injection E as E1 E2.
  f_equal; [now apply Hf|now apply IH].
Qed.
Lemma describes_unique es c c' : wf_collection c -> wf_collection c' -> describes es c -> describes es c' -> c = c'.
Proof.
  intros W W' [D1 D2 D3 D4] [D1' D2' D3' D4'].
  assert (Et : terms c = terms c').
  { apply (strict_unique lex_lt lex_irrefl lex_trans); [apply lex_ssorted, D1|apply lex_ssorted, D1'|]. intros w. now rewrite (proj2 D1), (proj2 D1'). }
  assert (Ec : comps c = comps c').
  { set (P := fun x : N => 1 <= N.to_nat x <= length (terms c)). apply (map_inj_in (words_of c) (Forall P)).
    - intros x y Hx Hy E. apply (map_inj_in (word c) P); try assumption. intros a b Ha Hb Eab. unfold word, P in *.
      pose proof (lex_sorted_nth_inj (terms c) (N.to_nat a - 1) (N.to_nat b - 1) [] (proj1 D1)) as Hi. lapply Hi; [|lia]. intros Hi2. clear Hi.
      first [specialize (Hi2 ltac:(lia) Eab)|specialize (Hi2 Eab)]. lia.
    - apply Forall_forall. intros x Hx. pose proof (proj2 (proj2 (wf_comps c W))) as H1. rewrite Forall_forall in H1. destruct (H1 x Hx) as (H2 & _).
      pose proof (wf_ids c W) as H3. rewrite Forall_forall in H3. specialize (H3 x Hx). rewrite Forall_forall in *. intros a Ha. specialize (H2 a Ha). specialize (H3 a Ha). unfold P. lia.
    - apply Forall_forall. intros x Hx. pose proof (proj2 (proj2 (wf_comps c' W'))) as H1. rewrite Forall_forall in H1. destruct (H1 x Hx) as (H2 & _).
      pose proof (wf_ids c' W') as H3. rewrite Forall_forall in H3. specialize (H3 x Hx). rewrite Forall_forall in *. intros a Ha. specialize (H2 a Ha). specialize (H3 a Ha). unfold P. rewrite Et. lia.
    - rewrite D3, <- D3'. unfold words_of, word. now rewrite Et. }
  destruct c, c'. cbn in *. congruence.
Qed.

Section Answers.
Variables (es : entries) (c : collection).
Hypothesis D : describes es c.

Lemma doc_entry d ids : is_doc c d ids -> exists ws, In (d, ws) es /\ words_of c ids = map encoded ws.
Proof.
  intros (i & Hd & Hi). rewrite (ds_docs _ _ D), nth_error_map in Hd. destruct (nth_error es i) as [e|] eqn:E; [|discriminate]. injection Hd as <-.
  exists (snd e). split; [rewrite <- surjective_pairing; exact (nth_error_In _ _ E)|].
  pose proof (f_equal (fun l => nth_error l i) (ds_comps _ _ D)) as H. cbn beta in H. rewrite !nth_error_map, Hi, E in H. now injection H.
Qed.
Lemma entry_doc d ws : In (d, ws) es -> exists ids, is_doc c d ids /\ words_of c ids = map encoded ws.
Proof.
  intros H. destruct (In_nth_error _ _ H) as (i & E). pose proof (f_equal (fun l => nth_error l i) (ds_comps _ _ D)) as H2. cbn beta in H2. rewrite !nth_error_map, E in H2.
  destruct (nth_error (comps c) i) as [ids|] eqn:Ei; [|discriminate]. exists ids. split; [|now injection H2]. exists i. split; [|exact Ei]. rewrite (ds_docs _ _ D), nth_error_map, E. reflexivity.
Qed.
Lemma topk_best P k out : topk_answer c P k out <-> best es P k out.
Proof.
  split; intros (H1 & H2 & H3 & H4); (split; [exact H1|]); (split; [exact H2|]); split.
  - intros d s H. destruct (H3 d s H) as (ids & Hd & HP & ->). destruct (doc_entry d ids Hd) as (ws & Hi & E). exists ws. rewrite <- E. split; [exact Hi|]. split; [exact HP|].
    unfold text. now rewrite E, encoded_join.
  - intros d ws Hi HP. destruct (entry_doc d ws Hi) as (ids & Hd & E). rewrite <- E in HP. specialize (H4 d ids Hd HP). unfold text in H4. now rewrite E, encoded_join in H4.
  - intros d s H. destruct (H3 d s H) as (ws & Hi & HP & ->). destruct (entry_doc d ws Hi) as (ids & Hd & E). exists ids. rewrite E. split; [exact Hd|]. split; [exact HP|].
    unfold text. now rewrite E, encoded_join.
  - intros d ids Hd HP. destruct (doc_entry d ids Hd) as (ws & Hi & E). rewrite E in HP. specialize (H4 d ws Hi HP). unfold text. now rewrite E, encoded_join.
Qed.
Lemma best_ext P Q k out : (forall ws, P ws <-> Q ws) -> best es P k out -> best es Q k out.
Proof.
  intros E (H1 & H2 & H3 & H4). split; [exact H1|]. split; [exact H2|]. split.
  - intros d s H. destruct (H3 d s H) as (ws & Hi & HP & Hs). exists ws. split; [exact Hi|]. split; [now apply E|exact Hs].
  - intros d ws Hi HQ. apply H4; [exact Hi|now apply E].
Qed.
Lemma conj_matches ts last ws : conj_match c ts last ws <-> matches_all es ts last ws.
Proof.
  unfold conj_match, matches_all. split; intros (H1 & H2); (split; [|exact H2]); intros t Ht Ho; apply H1; try assumption; now apply (proj2 (ds_terms _ _ D)).
Qed.
Lemma answer_completes r out : answer_to c r out <-> completes es r out.
Proof.
  split; intros (ts & last & Hq & H); exists ts, last; (split; [exact Hq|]).
  - apply topk_best in H. destruct (rq_conj r); [|exact H]. eapply best_ext; [|exact H]. apply conj_matches.
  - apply topk_best. destruct (rq_conj r); [|exact H]. eapply best_ext; [|exact H]. intros ws. symmetry. apply conj_matches.
Qed.
End Answers.

(** A row without columns makes map_dataset.py fail. *)
Lemma map_lines_blank tokens ls : forall longest, In [] (map columns ls) -> map_lines tokens ls longest = Exn.
Proof.
  induction ls as [|l ls IH]; intros longest H; [destruct H|]. cbn [map_lines]. destruct (columns l) as [|x ts] eqn:E; [reflexivity|].
  assert (Hi : In [] (map columns ls)) by (destruct H as [H|H]; [congruence|exact H]).
  assert (Ht : forall ts, map_tokens tokens ts = Exn \/ exists v, map_tokens tokens ts = Ok v).
  { clear. induction ts as [|t ts [IH|(v & IH)]]; cbn [map_tokens]; [right; eauto|destruct (dict_get str_eqb tokens t); [rewrite IH|]; now left|].
    destruct (dict_get str_eqb tokens t); [|now left]. rewrite IH. destruct v. right. cbn [bind]. eauto. }
  destruct (Ht ts) as [E'|((ids, len) & E')]; rewrite E'; cbn [bind]; [reflexivity|]. cbn zeta. now rewrite IH.
Qed.
End Python.
