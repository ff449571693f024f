(** Answers of a collection and of one that has more completions. *)
From Coq Require Import Sorted Lia.
From Verif Require Import Base S_Order S_Vocab S_Parse M_Parse P_Parse M_Containers S_Containers M_Auto M_Auto1 S_Collection S_Index S_Room S_Found M_Auto2 S_Index2 S_Build M_Blocked S_Blocked.
From Verif Require Import P_Order P_Kept P_ParseFc P_Collection P_Auto23 P_Auto4 P_Exact S_Meta P_Meta P_Again S_Grow.
Local Open Scope nat_scope.

Section Grow.
  Context (f : nat -> nat) (c c' : collection) (Hwf : wf_collection c) (Hwf' : wf_collection c') (Hg : grows f c c').

  Lemma has_doc ids : In ids (comps c) -> exists d, is_doc c d ids.
  Proof.
    intros H. apply In_nth_error in H. destruct H as [i Hi]. assert (Hl : i < length (docs c)) by (rewrite (wf_docs_len c Hwf); apply nth_error_Some; congruence).
    exists (nth i (docs c) 0). exists i. split; [now apply nth_error_nth'|exact Hi].
  Qed.
  Lemma terms_grow w : In w (terms c) -> In w (terms c').
  Proof.
    intros H. apply In_nth with (d := []) in H. destruct H as (i & Hi & <-). destruct (wf_used c Hwf (i + 1)) as (ids & Hin & Hx); [lia|].
    destruct (has_doc ids Hin) as [d Hd]. destruct (Hg d ids Hd) as (ids' & Hd' & E). apply (words_in c' Hwf' ids'); [eapply is_doc_in; eauto|].
    rewrite E. apply in_map_iff. exists (N.of_nat (i + 1)). split; [|exact Hx]. unfold word. f_equal. lia.
  Qed.
  Lemma words_old d ids w : is_doc c d ids -> In w (words_of c ids) -> In w (terms c).
  Proof. intros Hd. apply (words_in c Hwf). eapply is_doc_in; eauto. Qed.
  Lemma known_grow w : sizes_ok c' -> known c w -> known c' w.
  Proof. intros H Hk. apply known_all; [exact H|]. apply terms_grow. now apply (known_in c). Qed.

  Lemma first_lt cc w : wf_collection cc -> In w (terms cc) -> w <> nth 0 (terms cc) [] -> lex_lt (nth 0 (terms cc) []) w.
  Proof.
    intros Hw Hi Hn. destruct (wf_terms cc Hw) as (Hs & _ & _). destruct (terms cc) as [|a l]; [destruct Hi|]. cbn [nth] in *.
    destruct Hi as [->|Hi]; [congruence|]. exact (lex_sorted_head a l w Hs Hi).
  Qed.
  Lemma first_in cc : wf_collection cc -> In (nth 0 (terms cc) []) (terms cc).
  Proof. intros Hw. destruct (wf_terms cc Hw) as (_ & Hn & _). destruct (terms cc); [congruence|now left]. Qed.
  Lemma found_grow last w : sizes_ok c' -> In w (terms c) -> found c last w -> found c' last w.
  Proof.
    intros H Hi [[Hp Hf] Hk]. split; [split; [exact Hp|]|right; apply known_all; [exact H|now apply terms_grow]]. intros E. apply Hf.
    destruct (list_eq_dec N.eq_dec w (nth 0 (terms c) [])) as [|Hn]; [assumption|exfalso]. pose proof (first_lt c w Hwf Hi Hn) as L.
    pose proof (terms_grow _ (first_in c Hwf)) as Hi'. destruct (list_eq_dec N.eq_dec (nth 0 (terms c) []) (nth 0 (terms c') [])) as [X|X].
    - rewrite X, <- E in L. exact (lex_irrefl _ L).
    - pose proof (first_lt c' _ Hwf' Hi' X) as L'. rewrite <- E in L'. exact (lex_asym _ _ L L').
  Qed.
  Lemma found_back last w : sizes_ok c -> first_term_ok c last -> In w (terms c) -> found c' last w -> found c last w.
  Proof. intros H H1 Hi [[Hp _] _]. now apply found_prefix. Qed.

  Lemma prefix_grow d ids ts last : sizes_ok c' -> is_doc c d ids -> prefix_by c (found c last) ts (words_of c ids) -> prefix_by c' (found c' last) ts (words_of c ids).
  Proof.
    intros H Hd (A & w & rest & E & R). split; [eapply Forall_impl; [|exact A]; intros t; now apply known_grow|]. exists w, rest. split; [exact E|].
    apply found_grow; auto. apply (words_old d ids); [exact Hd|]. rewrite E. apply in_or_app. right. now left.
  Qed.
  Lemma prefix_back d ids ts last : sizes_ok c -> first_term_ok c last -> is_doc c d ids -> prefix_by c' (found c' last) ts (words_of c ids) -> prefix_by c (found c last) ts (words_of c ids).
  Proof.
    intros H H1 Hd (A & w & rest & E & R).
    assert (Hw : forall v, In v (ts ++ w :: rest) -> In v (terms c)) by (intros v Hv; apply (words_old d ids); [exact Hd|]; now rewrite E).
    split; [apply Forall_forall; intros t Ht; apply known_all; [exact H|]; apply Hw, in_or_app; now left|]. exists w, rest. split; [exact E|].
    apply found_back; auto. apply Hw, in_or_app. right. now left.
  Qed.
  Lemma conj_grow d ids ts last : sizes_ok c -> sizes_ok c' -> (forall t, In t ts -> In t (terms c') -> In t (terms c)) -> is_doc c d ids ->
    conj_by c (found c last) ts (words_of c ids) -> conj_by c' (found c' last) ts (words_of c ids).
  Proof.
    intros H H' Hn Hd (A & w & Hw & R). split; [intros t Ht Hk; apply A; [exact Ht|]; apply known_all; [exact H|]; apply Hn; [exact Ht|now apply (known_in c')]|].
    exists w. split; [exact Hw|]. apply found_grow; auto. now apply (words_old d ids).
  Qed.
  Lemma conj_back d ids ts last : sizes_ok c -> sizes_ok c' -> first_term_ok c last -> is_doc c d ids -> conj_by c' (found c' last) ts (words_of c ids) -> conj_by c (found c last) ts (words_of c ids).
  Proof.
    intros H H' H1 Hd (A & w & Hw & R). split; [intros t Ht Hk; apply A; [exact Ht|now apply known_grow]|].
    exists w. split; [exact Hw|]. apply found_back; auto. now apply (words_old d ids).
  Qed.
End Grow.

(** Prefix search with the integer dictionary: not for the first completion. *)
Lemma first_doc c d ids : wf_collection c -> is_doc c d ids -> words_of c ids = words_of c (nth 0 (comps c) []) -> is_first c d.
Proof.
  intros Hwf Hd E. pose proof (is_doc_in c d ids Hd) as Hin. destruct (wf_comps c Hwf) as (Hs & Hne & _).
  assert (Hin0 : In (nth 0 (comps c) []) (comps c)) by (apply nth_In; destruct (comps c); [destruct Hin|cbn; lia]).
  assert (X : ids = nth 0 (comps c) []).
  { apply (words_inj c Hwf); [| |exact E]; apply Forall_forall; intros y Hy; [exact (proj1 (proj2 (ids_range c Hwf ids y Hin Hy)))|exact (proj1 (proj2 (ids_range c Hwf _ y Hin0 Hy)))]. }
  destruct Hd as (i & Di & Ci). assert (i = 0) as ->; [|exact Di].
  apply (proj1 (NoDup_nth_error (comps c)) (lex_sorted_NoDup _ Hs)); [apply nth_error_Some; congruence|]. rewrite Ci, X. symmetry. apply nth_error_nth'. destruct (comps c); [destruct Hin|cbn; lia].
Qed.
Lemma prefix_found_of c d ids ts last : wf_collection c -> sizes_ok2 c -> is_doc c d ids -> ~ is_first c d ->
  prefix_by c (found c last) ts (words_of c ids) -> prefix_found c ts last (words_of c ids).
Proof.
  intros Hwf H Hd Hn A. split; [exact A|]. split.
  - exists ids. split; [|reflexivity]. rewrite stored_all by apply H. eapply is_doc_in; eauto.
  - intros E. exfalso. apply Hn. eapply first_doc; eauto.
Qed.

(** Two searches for the same query, in the two collections. *)
Section Two.
  Context (f : nat -> nat) (c c' : collection) (Hwf : wf_collection c) (Hwf' : wf_collection c') (Hg : grows f c c').
  Context {S : Type} (results : S -> res (list (nat * list N))) (good : S -> Prop) (P P' : list (list N) -> list N -> list (list N) -> Prop).
  Context (ok ok' : list (list N) -> list N -> list (nat * list N) -> Prop) (run run' : S -> res S) (n n' : nat) (q : list N).
  Context (H : forall ts last s, query_split q ts last -> good s -> exists out, topk_answer c (P ts last) n out /\ gives results (ok ts last out) out (run s)).
  Context (H' : forall ts last s, query_split q ts last -> good s -> exists out, topk_answer c' (P' ts last) n' out /\ gives results (ok' ts last out) out (run' s)).

  Lemma grown_fwd (Q : nat -> Prop) : (forall d ids ts last, query_split q ts last -> is_doc c d ids -> Q d -> P ts last (words_of c ids) -> P' ts last (words_of c ids)) ->
    forall s t s' t' out out' d x, good s -> good t -> run s = Ok s' -> results s' = Ok out -> run' t = Ok t' -> results t' = Ok out' ->
    In (d, x) out -> Q d -> suggested n' out' (f d) x.
  Proof using Hg H H'.
    intros HP s t s' t' out out' d x Hs Ht E Eo E' Eo' Hin HQ. destruct (query_split_exists_unique q) as (ts & last & Hq & _).
    destruct (H ts last s Hq Hs) as (o & A & G). destruct (H' ts last t Hq Ht) as (o' & A' & G').
    pose proof (gives_results results _ _ _ _ _ G E Eo) as ->. pose proof (gives_results results _ _ _ _ _ G' E' Eo') as ->.
    destruct A as (_ & _ & A & _). destruct (A d x Hin) as (ids & Hd & Hm & ->). destruct (Hg d ids Hd) as (ids' & Hd' & Ew).
    unfold text. rewrite <- Ew. change (join (words_of c' ids')) with (text c' ids'). destruct A' as (_ & _ & _ & A'). apply A'; [exact Hd'|]. rewrite Ew. eauto.
  Qed.
  Lemma grown_back (Q : nat -> Prop) : (forall d ids ts last, query_split q ts last -> is_doc c d ids -> Q d -> P' ts last (words_of c ids) -> P ts last (words_of c ids)) ->
    forall s t s' t' out out' d ids x, good s -> good t -> run s = Ok s' -> results s' = Ok out -> run' t = Ok t' -> results t' = Ok out' ->
    is_doc c d ids -> In (f d, x) out' -> Q d -> suggested n out d x.
  Proof using Hg H H' Hwf'.
    intros HP s t s' t' out out' d ids x Hs Ht E Eo E' Eo' Hd Hin HQ. destruct (query_split_exists_unique q) as (ts & last & Hq & _).
    destruct (H ts last s Hq Hs) as (o & A & G). destruct (H' ts last t Hq Ht) as (o' & A' & G').
    pose proof (gives_results results _ _ _ _ _ G E Eo) as ->. pose proof (gives_results results _ _ _ _ _ G' E' Eo') as ->.
    destruct A' as (_ & _ & A' & _). destruct (A' (f d) x Hin) as (ids' & Hd' & Hm & ->). destruct (Hg d ids Hd) as (ids'' & Hd'' & Ew).
    assert (ids' = ids'') as <- by (rewrite <- (is_doc_fwd c' Hwf' _ _ Hd'), <- (is_doc_fwd c' Hwf' _ _ Hd''); reflexivity).
    unfold text. rewrite Ew in *. change (join (words_of c ids)) with (text c ids). destruct A as (_ & _ & _ & A). apply A; [exact Hd|]. eauto.
  Qed.
End Two.
