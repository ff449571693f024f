(** A suggestion, taken as the query, is suggested again. *)
From Coq Require Import Sorted Lia.
From Verif Require Import Base S_Order S_Vocab S_Parse M_Parse P_Parse M_Containers S_Containers M_Auto M_Auto1 S_Collection S_Index S_Room S_Found M_Auto2 S_Index2 S_Build M_Blocked S_Blocked.
From Verif Require Import P_Order P_Kept P_ParseFc P_Collection P_Auto23 P_Auto4 P_Exact S_Meta P_Meta.
Local Open Scope nat_scope.

Lemma join_split ws w : Forall (fun v => v <> [] /\ no_space v) ws -> no_space w -> query_split (join (ws ++ [w])) ws w.
Proof.
  intros H Hw. induction H as [|v ws [Hv Hn] H IH].
  - exists []. split; [reflexivity|]. split; [exact Hw|constructor].
  - destruct IH as (body & E & _ & Hb). exists (v ++ 32%N :: body).
    assert (Ej : join ((v :: ws) ++ [w]) = v ++ 32%N :: join (ws ++ [w])) by (destruct ws; reflexivity).
    rewrite Ej, E. split; [now rewrite <- app_assoc|]. split; [exact Hw|]. now constructor.
Qed.

Section Again.
  Context (c : collection) (Hwf : wf_collection c) (Hsp : no_spaces c).

  Lemma word_plain ids x : In ids (comps c) -> In x ids -> word c x <> [] /\ no_space (word c x).
  Proof.
    intros Hi Hx. destruct (ids_range c Hwf ids x Hi Hx) as (_ & Hr & _). assert (Hin : In (word c x) (terms c)) by (apply nth_In; lia).
    split; [|unfold no_spaces in Hsp; rewrite Forall_forall in Hsp; now apply Hsp].
    destruct (wf_terms c Hwf) as (_ & _ & Hf). rewrite Forall_forall in Hf. destruct (Hf _ Hin) as [_ L]. destruct (word c x); [cbn in L; lia|discriminate].
  Qed.
  (** The query that is the text of a completion. *)
  Lemma own_query d ids ts last : is_doc c d ids -> query_split (text c ids) ts last -> words_of c ids = ts ++ [last].
  Proof.
    intros Hd Hq. pose proof (is_doc_in c d ids Hd) as Hin.
    assert (Hne : ids <> []) by (destruct (wf_comps c Hwf) as (_ & _ & Hf); rewrite Forall_forall in Hf; intros ->; destruct (Hf _ Hin) as [_ L]; cbn in L; lia).
    destruct (exists_last Hne) as (ids' & y & ->). unfold text, words_of in *. rewrite map_app in *. cbn [map] in *.
    assert (Hq' : query_split (join (map (word c) ids' ++ [word c y])) (map (word c) ids') (word c y)).
    { apply join_split; [apply Forall_forall; intros v Hv; apply in_map_iff in Hv; destruct Hv as (z & <- & Hz)|];
        [eapply word_plain; [exact Hin|apply in_or_app; now left]|eapply word_plain; [exact Hin|apply in_or_app; right; now left]]. }
    destruct (query_split_exists_unique (join (map (word c) ids' ++ [word c y]))) as (a & b & _ & U). destruct (U _ _ Hq) as [-> ->]. now destruct (U _ _ Hq') as [-> ->].
  Qed.
  Lemma own_found last : known c last -> found c last last.
  Proof. intros H. split; [split; [apply prefix_refl|auto]|now right]. Qed.
  Lemma own_prefix ts last : Forall (known c) (ts ++ [last]) -> prefix_by c (found c last) ts (ts ++ [last]).
  Proof.
    intros H. apply Forall_app in H. destruct H as [A B]. split; [exact A|]. exists last, []. split; [reflexivity|]. apply own_found. now inversion B.
  Qed.
  Lemma own_conj ts last : Forall (known c) (ts ++ [last]) -> conj_by c (found c last) ts (ts ++ [last]).
  Proof. intros H. apply prefix_conj. now apply own_prefix. Qed.
  Lemma own_found2 d ids ts last : is_doc c d ids -> In d (stored (docs c)) -> words_of c ids = ts ++ [last] -> Forall (known c) (ts ++ [last]) -> prefix_found c ts last (words_of c ids).
  Proof.
    intros (i & Ei & Ec) Hs E H. rewrite E. split; [now apply own_prefix|]. split.
    - exists ids. split; [|now symmetry]. apply (nth_error_In _ i). apply stored_nth_error_lt; [exact Ec|].
      rewrite stored_length, <- (wf_docs_len c Hwf), <- (stored_length (docs c)).
      apply In_nth_error in Hs. destruct Hs as [j Hj]. pose proof (stored_nth_error _ _ _ Hj) as Hj'.
      assert (i = j) as -> by (apply (proj1 (NoDup_nth_error (docs c)) (wf_docs_nodup c Hwf)); [apply nth_error_Some; congruence|congruence]).
      apply nth_error_Some. congruence.
    - intros _. exists last. split; [reflexivity|]. intros v _ [[Hp _] _]. destruct (prefix_lex _ _ Hp) as [->|L]; auto.
  Qed.

  Lemma known_dec w : {known c w} + {~ known c w}.
  Proof. apply in_dec. apply (list_eq_dec N.eq_dec). Qed.
  Lemma legible_known out d s ids : ~ ~ legible c out -> In (d, s) out -> is_doc c d ids -> Forall (known c) (words_of c ids).
  Proof.
    intros Hn Hin Hd. apply Forall_forall. intros w Hw. apply in_map_iff in Hw. destruct Hw as (x & <- & Hx).
    destruct (known_dec (word c x)) as [|Hk]; [assumption|exfalso]. apply Hn. intros Hl. exact (Hk (Hl d s ids x Hin Hd Hx)).
  Qed.
  Lemma retained_stored out d s : ~ ~ retained c out -> In (d, s) out -> In d (stored (docs c)).
  Proof.
    intros Hn Hin. destruct (in_dec Nat.eq_dec d (stored (docs c))) as [|Hk]; [assumption|exfalso]. apply Hn. intros Hr. exact (Hk (Hr d s Hin)).
  Qed.

  Definition texts (out : list (nat * list N)) : Prop := forall d s, In (d, s) out -> exists ids, is_doc c d ids /\ s = text c ids.
  Lemma topk_texts P k out : topk_answer c P k out -> texts out.
  Proof. intros (_ & _ & A & _) d s Hin. destruct (A d s Hin) as (ids & Hd & _ & E). eauto. Qed.
  (** Two searches: the first gives the suggestion, the second takes it as the query. *)
  Lemma again {S} (results : S -> res _) (P' : list (list N) -> list N -> list (list N) -> Prop) (ok ok' : list (list N) -> list N -> list (nat * list N) -> Prop)
      (run run' : S -> res S) (good : S -> Prop) k' q x :
    (forall ts last s, query_split q ts last -> good s ->
       exists out, texts out /\ gives results (ok ts last out) out (run s)) ->
    (forall ts last s, query_split x ts last -> good s ->
       exists out, topk_answer c (P' ts last) (limit c k') out /\ gives results (ok' ts last out) out (run' s)) ->
    (forall ts last out, ok ts last out -> legible c out) ->
    (forall d ids ts' last' ts last out, ~ ~ ok ts last out -> In (d, x) out -> is_doc c d ids -> words_of c ids = ts' ++ [last'] -> Forall (known c) (ts' ++ [last']) -> P' ts' last' (words_of c ids)) ->
    forall s t s' t' out out' d, good s -> good t -> run s = Ok s' -> results s' = Ok out -> run' t = Ok t' -> results t' = Ok out' ->
    In (d, x) out -> suggested (limit c k') out' d x.
  Proof.
    intros H H' Hl HP s t s' t' out out' d Hs Ht E Eo E' Eo' Hin.
    destruct (query_split_exists_unique q) as (ts & last & Hq & _). destruct (query_split_exists_unique x) as (ts' & last' & Hq' & _).
    destruct (H ts last s Hq Hs) as (o & A & G). destruct (H' ts' last' t Hq' Ht) as (o' & A' & G').
    pose proof (gives_results results _ _ _ _ _ G E Eo) as ->. pose proof (gives_results results _ _ _ _ _ G' E' Eo') as ->.
    assert (Hok : ~ ~ ok ts last o) by (intros Hn; destruct G as [_ G]; rewrite (G Hn) in E; discriminate).
    destruct (A d x Hin) as (ids & Hd & Ex).
    assert (Hk : Forall (known c) (words_of c ids)) by (apply (legible_known o d x); auto; intros X; apply Hok; intros Y; apply X; eapply Hl; eauto).
    rewrite Ex in Hq'. pose proof (own_query d ids ts' last' Hd Hq') as Ew. rewrite Ew in Hk.
    destruct A' as (_ & _ & _ & A'). rewrite Ex. apply A'; [exact Hd|]. eapply HP; eauto.
  Qed.

  Lemma own1 r ids ts last : words_of c ids = ts ++ [last] -> Forall (known c) (ts ++ [last]) -> found_for1 c r ts last (words_of c ids).
  Proof. intros E H. rewrite E. unfold found_for1. destruct (rq_conj r); [now apply own_conj|now apply own_prefix]. Qed.
  Lemma own2 r d ids ts last : is_doc c d ids -> In d (stored (docs c)) -> words_of c ids = ts ++ [last] -> Forall (known c) (ts ++ [last]) -> found_for2 c r ts last (words_of c ids).
  Proof. intros Hd Hs E H. unfold found_for2. destruct (rq_conj r); [rewrite E; now apply own_conj|now apply (own_found2 d)]. Qed.
End Again.

Lemma ask4_texts K : bcontainers_ok K -> forall c, wf_collection c -> few_postings c -> forall m, some_kept_doc_positive c -> exists x, ac4_build K m (files_of c) = Ok x /\
  forall fuel r, query_fuel c < fuel ->
  (forall ts last s, query_split (rq_text r) ts last -> state2_ok s -> exists out, texts c out /\ gives res2 (reportable2 c out) out (ac4_request K x fuel r s)) /\
  ((rq_conj r = true -> 1 <= rq_k r /\ forall ts last, query_split (rq_text r) ts last -> query_exact_by c (found c last) (bi_bounds K (a4_inverted x)) ts) ->
   forall ts last s, query_split (rq_text r) ts last -> state2_ok s ->
   exists out, topk_answer c (found_for2 c r ts last) (limit c (rq_k r)) out /\ gives res2 (reportable2 c out) out (ac4_request K x fuel r s)).
Proof.
  intros HK c Hwf Hfew m Hp. destruct (auto4_exact K HK c Hwf Hfew m Hp) as (x & E & Hb & H). exists x. split; [exact E|].
  intros fuel r Hf. split.
  - intros ts last s Hq Hs. destruct (H fuel (rq_k r) (rq_text r) ts last s Hf Hq Hs) as [(o & B1 & B2 & B3) (o' & B1' & B2' & B3')]. unfold ac4_request. destruct (rq_conj r).
    + exists o'. split; [exact (proj2 B1')|]. split; [|exact B3']. intros Ho. destruct (B2' Ho) as (s' & C1 & C2 & _). exists s'; auto.
    + exists o. split; [exact (topk_texts c _ _ _ B1)|]. split; [|exact B3]. intros Ho. destruct (B2 Ho) as (s' & C1 & C2 & _). exists s'; auto.
  - intros Hx ts last s Hq Hs. destruct (H fuel (rq_k r) (rq_text r) ts last s Hf Hq Hs) as [(o & B1 & B2 & B3) (o' & B1' & B2' & B3')]. unfold found_for2, ac4_request. destruct (rq_conj r).
    + destruct (Hx eq_refl) as [Hk Hy]. exists o'. split; [rewrite limit_id by exact Hk; exact (blocked_exact c Hwf _ ts (found c last) Hb (Hy _ _ Hq) (rq_k r) o' Hk B1')|].
      split; [|exact B3']. intros Ho. destruct (B2' Ho) as (s' & C1 & C2 & _). exists s'; auto.
    + exists o. split; [exact B1|]. split; [|exact B3]. intros Ho. destruct (B2 Ho) as (s' & C1 & C2 & _). exists s'; auto.
Qed.
