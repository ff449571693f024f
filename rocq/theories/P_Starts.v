(** Prefix search as a search for texts. *)
From Coq Require Import Sorted.
From Verif Require Import Base S_Order S_Vocab S_Parse S_Collection S_Found S_Meta S_Starts P_Order P_Again.
Local Open Scope nat_scope.

Definition plain (w : list N) : Prop := w <> [] /\ no_space w.

Lemma squeeze_word w : no_space w -> forall b, squeeze_after b w = w.
Proof. induction 1 as [|x w Hx _ IH]; intros b; cbn [squeeze_after]; [reflexivity|]. destruct (N.eqb_spec x 32); [contradiction|]. now rewrite IH. Qed.
Lemma squeeze_words w r : no_space w -> w <> [] -> forall b, squeeze_after b (w ++ 32%N :: r) = w ++ 32%N :: squeeze_after true r.
Proof.
  intros H. induction H as [|x w Hx Hw IH]; intros Hne b; [contradiction|]. cbn [app squeeze_after].
  destruct (N.eqb_spec x 32); [contradiction|]. destruct w as [|y w]; [reflexivity|]. f_equal. now apply IH.
Qed.
Lemma join_cons w ws : ws <> [] -> join (w :: ws) = w ++ 32%N :: join ws.
Proof. destruct ws; [contradiction|reflexivity]. Qed.
Lemma app_last_ne {A} (l : list A) x : l ++ [x] <> []. Proof. now destruct l. Qed.
Lemma squeeze_split q ts last : query_split q ts last -> squeeze q = join (ts ++ [last]) /\ Forall plain ts /\ no_space last.
Proof.
  intros (body & -> & Hl & Hb). unfold squeeze. split; [|split; [|exact Hl]]; induction Hb as [|r ts Hr IH|w r ts Hne Hw Hr IH]; auto.
  - now apply squeeze_word.
  - rewrite <- app_assoc. cbn [app]. rewrite squeeze_words by auto. rewrite IH. symmetry. cbn [app]. apply join_cons, app_last_ne.
  - constructor; [split|]; auto.
Qed.

Lemma prefix_starts ts last ws : prefix_match ts last ws -> starts_with (join (ts ++ [last])) ws.
Proof.
  intros (w & rest & -> & (x & ->)). unfold starts_with. induction ts as [|t ts (y & E)].
  - cbn [app]. destruct rest as [|v rest]; [exists x; reflexivity|]. exists (x ++ 32%N :: join (v :: rest)). cbn [join]. now rewrite <- app_assoc.
  - cbn [app] in *. rewrite (join_cons t (ts ++ [last])) by apply app_last_ne. rewrite join_cons by now destruct ts. exists y. rewrite <- app_assoc. cbn [app]. now rewrite E.
Qed.
Lemma space_free_prefix l w r : no_space l -> is_prefix l (w ++ 32%N :: r) -> is_prefix l w.
Proof.
  intros Hl (x & E). revert w E. induction Hl as [|y l Hy Hl IH]; intros w E; [now exists w|]. destruct w as [|z w]; cbn [app] in E; [congruence|].
  injection E as -> E. destruct (IH w E) as (u & ->). now exists u.
Qed.
Lemma word_split w t r s : no_space w -> no_space t -> w ++ 32%N :: r = t ++ 32%N :: s -> w = t /\ r = s.
Proof.
  intros Hw. revert t. induction Hw as [|x w Hx Hw IH]; intros t Ht E.
  - destruct t as [|y t]; cbn [app] in E; [split; congruence|]. inversion Ht; subst. congruence.
  - destruct t as [|y t]; cbn [app] in E; [congruence|]. inversion Ht; subst. injection E as -> E. destruct (IH t) as [-> ->]; auto.
Qed.
Lemma starts_prefix ts last : Forall plain ts -> no_space last -> forall ws, ws <> [] -> Forall no_space ws -> starts_with (join (ts ++ [last])) ws -> prefix_match ts last ws.
Proof.
  intros Hts Hl. unfold starts_with. induction Hts as [|t ts [Ht Hn] Hts IH]; intros ws Hne Hws Hp.
  - cbn [app join] in Hp. destruct ws as [|w rest]; [contradiction|]. exists w, rest. split; [reflexivity|]. destruct rest as [|v rest]; [exact Hp|].
    rewrite join_cons in Hp by discriminate. eapply space_free_prefix; eauto.
  - cbn [app] in Hp. rewrite join_cons in Hp by apply app_last_ne. destruct ws as [|w rest]; [contradiction|]. inversion Hws as [|? ? Hw Hrest]; subst.
    destruct Hp as (x & E). rewrite <- app_assoc in E. cbn [app] in E. destruct rest as [|v rest].
    + cbn [join] in E. exfalso. unfold no_space in Hw. rewrite E in Hw. rewrite Forall_forall in Hw. apply (Hw 32%N); [|reflexivity]. apply in_or_app. right. now left.
    + rewrite join_cons in E by discriminate. destruct (word_split _ _ _ _ Hw Hn E) as [-> E']. destruct (IH (v :: rest)) as (u & r & Er & Hu); [discriminate|exact Hrest|exists x; exact E'|].
      exists u, r. split; [cbn [app]; now rewrite Er|exact Hu].
Qed.

Section Starts.
  Context (c : collection) (Hwf : wf_collection c).

  Lemma starts_iff q ts last ids : no_spaces c -> query_split q ts last -> In ids (comps c) ->
    prefix_match ts last (words_of c ids) <-> starts_with (squeeze q) (words_of c ids).
  Proof.
    intros Hsp Hq Hin. destruct (squeeze_split q ts last Hq) as (-> & Hp & Hl). split; [apply prefix_starts|].
    apply starts_prefix; auto.
    - destruct (wf_comps c Hwf) as (_ & _ & Hf). rewrite Forall_forall in Hf. destruct (Hf _ Hin) as [_ L]. destruct ids; [cbn in L; lia|discriminate].
    - apply Forall_forall. intros v Hv. apply in_map_iff in Hv. destruct Hv as (x & <- & Hx). exact (proj2 (word_plain c Hwf Hsp ids x Hin Hx)).
  Qed.
  Lemma answer_starts q ts last k out : no_spaces c -> query_split q ts last -> topk_answer c (prefix_match ts last) k out -> topk_answer c (starts_with (squeeze q)) k out.
  Proof.
    intros Hsp Hq (A & B & C & D). split; [exact A|]. split; [exact B|]. split.
    - intros d s H. destruct (C d s H) as (ids & Hd & Hm & E). exists ids. split; [exact Hd|]. split; [|exact E]. apply (starts_iff q ts last ids Hsp Hq); [exact (P_Collection.is_doc_in c d ids Hd)|exact Hm].
    - intros d ids Hd Hm. apply D; [exact Hd|]. apply (starts_iff q ts last ids Hsp Hq); [exact (P_Collection.is_doc_in c d ids Hd)|exact Hm].
  Qed.
  Lemma results_start (P : list (list N) -> Prop) q ts last k out d s : query_split q ts last -> (forall ws, P ws -> prefix_match ts last ws) ->
    topk_answer c P k out -> In (d, s) out -> is_prefix (squeeze q) s.
  Proof.
    intros Hq HP (_ & _ & C & _) Hin. destruct (C d s Hin) as (ids & _ & Hm & ->). destruct (squeeze_split q ts last Hq) as (-> & _). exact (prefix_starts _ _ _ (HP _ Hm)).
  Qed.
  Lemma by_match ts last ws : prefix_by c (found c last) ts ws -> prefix_match ts last ws.
  Proof. intros (_ & w & rest & E & (H & _) & _). exists w, rest. auto. Qed.
  Lemma found_match ts last ws : prefix_found c ts last ws -> prefix_match ts last ws.
  Proof. intros (H & _). now apply by_match. Qed.
End Starts.
