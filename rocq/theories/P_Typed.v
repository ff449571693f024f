(** Typing out a completion: proofs for C71. *)
From Coq Require Import Sorted Lia.
From Verif Require Import Base S_Order S_Vocab S_Parse M_Parse P_Parse M_Containers S_Containers M_Auto M_Auto1 S_Collection S_Index S_Room S_Found M_Auto2 S_Index2 S_Build M_Blocked S_Blocked.
From Verif Require Import P_Order P_Kept P_ParseFc P_Collection P_Auto23 P_Auto4 P_Exact S_Meta P_Meta P_Again S_Starts P_Starts S_Typed.
Local Open Scope nat_scope.

Section Typed.
  Context (c : collection) (Hwf : wf_collection c) (Hsp : no_spaces c).

  Lemma typed_words r d ids ts last : typed_out c r d ids -> query_split (rq_text r) ts last -> words_of c ids = ts ++ [last].
  Proof.
    intros [Hd E] Hq. destruct (squeeze_split _ _ _ Hq) as (Es & Hp & Hl). apply (own_query c Hwf Hsp d ids ts last Hd). rewrite <- E, Es. now apply join_split.
  Qed.
  Lemma typed1 r d ids ts last k out : typed_out c r d ids -> query_split (rq_text r) ts last -> Forall (known c) (words_of c ids) ->
    topk_answer c (found_for1 c r ts last) k out -> suggested k out d (text c ids).
  Proof.
    intros Ht Hq Hk (_ & _ & _ & A). pose proof (typed_words r d ids ts last Ht Hq) as E. apply A; [apply Ht|]. rewrite E in Hk. now apply own1.
  Qed.
  Lemma typed2 r d ids ts last k out : typed_out c r d ids -> query_split (rq_text r) ts last -> Forall (known c) (words_of c ids) -> In d (stored (docs c)) ->
    topk_answer c (found_for2 c r ts last) k out -> suggested k out d (text c ids).
  Proof.
    intros Ht Hq Hk Hs (_ & _ & _ & A). pose proof (typed_words r d ids ts last Ht Hq) as E. apply A; [apply Ht|]. rewrite E in Hk. apply (own2 c Hwf r d); auto. apply Ht.
  Qed.
  (** The only match. *)
  Lemma alone (P : list (list N) -> Prop) r d ids ts last k out : typed_out c r d ids -> query_split (rq_text r) ts last -> continued_by_none c d ids -> 1 <= k ->
    (forall ws, P ws -> prefix_match ts last ws) -> topk_answer c P k out -> suggested k out d (text c ids) -> out = [(d, text c ids)].
  Proof.
    intros [Hd E] Hq Hn Hk HP A Hs. assert (Hin : forall d' s, In (d', s) out -> d' = d).
    { intros d' s Hi. pose proof (results_start c P _ ts last k out d' s Hq HP A Hi) as Hp. rewrite E in Hp.
      destruct A as (_ & _ & A & _). destruct (A d' s Hi) as (ids' & Hd' & _ & ->). exact (Hn d' ids' Hd' Hp). }
    destruct A as (So & _ & _ & _). destruct out as [|[d1 s1] out].
    - destruct Hs as [[]|[L _]]. cbn in L. lia.
    - assert (d1 = d) as -> by (apply (Hin d1 s1); now left). destruct out as [|[d2 s2] out].
      + destruct Hs as [[Hs|[]]|[_ F]]; [now rewrite Hs|]. inversion F; subst. cbn in *. lia.
      + assert (d2 = d) as -> by (apply (Hin d2 s2); right; now left). cbn in So. inversion So as [|? ? _ F]; subst. inversion F; subst. lia.
  Qed.
  Lemma limit_pos k d ids : is_doc c d ids -> 1 <= limit c k.
  Proof. intros Hd. unfold limit. destruct (Nat.eqb_spec k 0); [|lia]. apply is_doc_in in Hd. destruct (comps c); [destruct Hd|cbn; lia]. Qed.
  Lemma known_words d ids : sizes_ok c -> is_doc c d ids -> Forall (known c) (words_of c ids).
  Proof.
    intros H Hd. apply Forall_forall. intros w Hw. apply in_map_iff in Hw as (x & <- & Hx). apply known_all; [exact H|].
    destruct (ids_range c Hwf ids x (is_doc_in c d ids Hd) Hx) as (_ & Hr & _). apply nth_In. lia.
  Qed.
  Lemma stored_docs d ids : sizes_ok2 c -> is_doc c d ids -> In d (stored (docs c)).
  Proof.
    intros [_ H] (i & Hi & _). rewrite stored_all; [eapply nth_error_In; eauto|]. rewrite (wf_docs_len c Hwf). exact H.
  Qed.
  Lemma join_length ws : length (join ws) <= length (concat ws) + length ws.
  Proof. induction ws as [|w [|v ws] IH]; [cbn; lia|cbn; rewrite app_nil_r; lia|]. change (join (w :: v :: ws)) with (w ++ 32%N :: join (v :: ws)). change (concat (w :: v :: ws)) with (w ++ concat (v :: ws)). rewrite !app_length. cbn [length] in *. lia. Qed.
  (** A completion fits into the result buffer. *)
  Lemma text_fits d ids : is_doc c d ids -> length (text c ids) + 256 <= POOL_SIZE.
  Proof.
    intros Hd. apply is_doc_in in Hd. pose proof (wf_text c Hwf) as Ht. rewrite Forall_forall in Ht. specialize (Ht ids Hd).
    destruct (wf_comps c Hwf) as (_ & _ & Hc). rewrite Forall_forall in Hc. destruct (Hc ids Hd) as (_ & Hl). pose proof (join_length (words_of c ids)) as Hj.
    unfold text. unfold words_of in Hj at 3. rewrite map_length in Hj. unfold POOL_SIZE. lia.
  Qed.
End Typed.
