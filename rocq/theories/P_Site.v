(** Proofs about the whole site. *)
From Coq Require Import String.
From Verif Require Import Base S_Python S_Order S_Vocab S_Parse M_Fc M_Trie M_Containers S_Containers M_Auto M_Auto1 S_Collection S_Index S_Found S_Json M_Web M_Request S_Request S_Session S_Prep M_Prep S_Site.
From Verif Require Import S_Save P_Order P_PrepDict P_Auto1 P_Web P_Collection P_Parse P_ParseFc P_Request P_Session P_Prep P_PrepEnd.
Local Open Scope nat_scope.

Lemma join_part w ws x : In w ws -> In x w -> In x (join ws).
Proof.
  induction ws as [|v ws IH]; intros H Hx; [destruct H|]. destruct ws as [|v' ws]; [destruct H as [->|[]]; exact Hx|].
  change (join (v :: v' :: ws)) with (v ++ 32%N :: join (v' :: ws))%list. apply in_app_iff. destruct H as [->|H]; [left; exact Hx|right; right; now apply IH].
Qed.

Lemma join_length ws : length (join ws) + 1 <= length (concat ws) + Nat.max 1 (length ws).
Proof.
  induction ws as [|w [|v ws] IH]; [cbn; lia|cbn; rewrite app_nil_r; lia|]. change (join (w :: v :: ws)) with (w ++ 32%N :: join (v :: ws)).
  change (concat (w :: v :: ws)) with (w ++ concat (v :: ws)). rewrite !app_length. cbn [length] in *. lia.
Qed.
(** No valid input has completions of more than 190 bytes. *)
Lemma valid_lengths {py : python} (es : S_Prep.entries) d ws : valid_input es -> In (d, ws) es -> length (encoded (join ws)) <= 190.
Proof.
  intros Hv H. pose proof (vi_words _ Hv) as Hw. rewrite Forall_forall in Hw. destruct (Hw _ H) as (H1 & _ & H2). cbn [snd] in *. rewrite <- encoded_join. rewrite <- encoded_concat in H2.
  pose proof (join_length (map encoded ws)) as Hj. rewrite map_length in Hj. lia.
Qed.

Section Site.
  Context {py : python} (es : S_Prep.entries) (c : collection) (Hwf : wf_collection c) (D : describes es c).

  Lemma comp_doc ids : In ids (comps c) -> exists d, is_doc c d ids.
  Proof using Hwf.
    intros H. destruct (In_nth_error _ _ H) as (i & E). assert (Hl : i < length (docs c)).
    { rewrite (wf_docs_len c Hwf). apply nth_error_Some. congruence. }
    apply nth_error_Some in Hl. destruct (nth_error (docs c) i) as [d|] eqn:Ed; [|congruence]. exists d, i. split; assumption.
  Qed.
  Lemma modest_short L : modest L es -> short_texts L c.
  Proof using Hwf D.
    intros H ids Hi. destruct (comp_doc ids Hi) as (d & Hd). destruct (doc_entry es c D d ids Hd) as (ws & Hw & E). unfold text. rewrite E, encoded_join. exact (proj1 (H d ws Hw)).
  Qed.
  Lemma modest_percent L : modest L es -> percent_free c.
  Proof using D.
    intros H t Ht Hx. apply (proj2 (ds_terms _ _ D)) in Ht. destruct Ht as (v & (e & He & Hv) & ->). destruct e as [d ws]. apply (proj2 (H d ws He)). rewrite <- encoded_join.
    apply (join_part (encoded v)); [apply in_map; exact Hv|exact Hx].
  Qed.
  Lemma wants_request L r k ts last : sizes_ok c -> modest L es -> wants r k ts last -> affordable L k -> web_request c r.
  Proof using Hwf D. intros Hz H (t & _ & _ & Hk & _) Hk'. exact (short_request c Hwf L r k Hz (modest_short L H) Hk Hk'). Qed.
  Lemma responds_completed r k ts last data : sizes_ok c -> wants r k ts last -> first_term_ok c last -> responds c r data -> completed es r data.
  Proof using Hwf D.
    intros Hz Hw Hf (out & (t' & k' & Ht' & Hk' & ts' & last' & Hq' & Ho) & Hd). destruct Hw as (t & Et & Hl & Hk & Hk1 & Hq). cbn [rq_conj rq_k rq_text] in *.
    rewrite Et in Ht'. destruct Ht' as [[_ ->]|[Hl' _]]; [|lia]. assert (k' = k) by (eapply counts_unique; eassumption). subst k'.
    destruct (query_split_det _ _ _ _ _ Hq Hq') as [<- <-]. exists k, ts, last, out. split; [exists t; repeat split; auto; lia|]. split; [|exact Hd].
    unfold limit in Ho. destruct (Nat.eqb_spec k 0); [lia|]. eapply best_ext; [apply (conj_matches es c D)|]. apply (topk_best es c D).
    eapply topk_answer_ext; [|exact Ho]. intros ids Hids. now apply conj_by_found.
  Qed.

  Lemma dictionary_terms V : dictionary es V -> terms c = V.
  Proof using D.
    intros [H1 H2]. apply (strict_unique lex_lt lex_irrefl lex_trans); [apply lex_ssorted, (ds_terms _ _ D)|apply lex_ssorted, H1|].
    intros w. now rewrite (proj2 (ds_terms _ _ D)), H2.
  Qed.
  Lemma servable_collection L V : valid_input es -> servable L es V -> sizes_ok c /\ small_dict c /\ some_doc_positive c /\ some_term_not_in_doc0 c.
  Proof using Hwf D.
    intros Hv [H1 _ H3 H5 (d & ws & Hd & Hpos) (w & Hw & H7)]. pose proof (dictionary_terms V H1) as <-.
    assert (H4 : Forall (Forall (fun x => (x < 256)%N)) (terms c)).
    { apply Forall_forall. intros x Hx. apply (proj2 H1) in Hx. destruct Hx as (v & (e & He & Hw1) & ->). pose proof (vi_words _ Hv) as Hwd. rewrite Forall_forall in Hwd.
      destruct (Hwd _ He) as (_ & Hwd2 & _). rewrite Forall_forall in Hwd2. destruct (Hwd2 _ Hw1) as [_ Hl]. eapply Forall_impl; [|exact (encoded_bytes v Hl)]. intros b [_ Hb]. exact Hb. }
    split; [exact H3|]. split; [split; assumption|]. split.
    - exists d. split; [|exact Hpos]. rewrite (ds_docs _ _ D). apply (in_map fst) in Hd. exact Hd.
    - destruct (In_nth_error _ _ Hw) as (i & Hi). assert (Hl : i < length (terms c)) by (apply nth_error_Some; congruence).
      exists (S i). split; [lia|]. intros H. apply (in_posting c Hwf) in H. destruct H as (ids & Hdoc & Hx). destruct (doc_entry es c D 0 ids Hdoc) as (ws' & Hws & E).
      apply (H7 ws' Hws). rewrite <- E. unfold words_of. apply in_map_iff. exists (N.of_nat (S i)). split; [|exact Hx]. unfold word. rewrite Nat2N.id.
      replace (S i - 1) with i by lia. now apply nth_error_nth.
  Qed.
  Lemma not_first_ok V last : dictionary es V -> not_first V last -> first_term_ok c last.
  Proof using D.
    intros Hv H Hn Hp. rewrite (dictionary_terms V Hv) in *. destruct V as [|w W]; [|exact (H w W eq_refl Hp Hn)].
    cbn [nth] in Hp. destruct Hp as (x & Hx). destruct last; [congruence|discriminate].
  Qed.
End Site.
