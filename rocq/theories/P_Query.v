(** Facts about queries shared by all index types. *)
From Coq Require Import Sorted Permutation.
From Verif Require Import Base S_Order P_Order S_Vocab S_Completions M_Fc P_Fc S_Parse M_Parse P_Parse P_ParseFc.
From Verif Require Import M_Heap S_Heap M_Iter S_Iter M_TopK S_TopK P_TopK P_TopKDistinct M_Intersect S_Intersect P_Intersect.
From Verif Require Import M_Find S_Search M_Trie S_Trie P_TrieFinal M_Containers S_Containers P_Containers.
From Verif Require Import M_Auto S_Collection S_Index P_Collection P_Pool M_Auto1.
Local Open Scope nat_scope.

(** * Facts shared by all index types *)
Section Common.
  Variable c : collection.
  Hypothesis Hwf : wf_collection c.

  Lemma T_bound : (1 <= N.of_nat (length (terms c)) < 4294967296)%N.
  Proof.
    pose proof (terms_nonempty c Hwf) as H. split; [lia|].
    destruct (wf_used c Hwf (length (terms c))) as (ids & Hin & Hx); [lia|].
    destruct (ids_range c Hwf ids _ Hin Hx) as (_ & _ & Hlt). lia.
  Qed.

  Lemma universe_pos : 0 < universe c.
  Proof. pose proof (n_le_universe c Hwf). pose proof (comps_nonempty c Hwf). lia. Qed.

  Lemma minimal_doc_ids_ok ls : Forall (fun l : list nat => l <> []) ls -> minimal_doc_ids ls = Ok (map (fun p => hd 0 p) ls).
  Proof.
    unfold minimal_doc_ids. induction 1 as [|l ls Hl H IH]; [reflexivity|]. cbn [map map_res].
    destruct l as [|x l]; [congruence|]. cbn. rewrite IH. reflexivity.
  Qed.

  Definition forwards : list (list N) := map (forward_list c) (seq 0 (universe c)).
  Lemma forwards_nth d : d < universe c -> nth_error forwards d = Some (forward_list c d).
  Proof.
    intros H. unfold forwards. rewrite nth_error_map, (nth_error_nth' _ 0) by now rewrite seq_length.
    now rewrite seq_nth.
  Qed.

  Lemma forward_cases d : forward_list c d = [] \/ In (forward_list c d) (comps c).
  Proof.
    destruct (forward_list c d) as [|x l] eqn:E; [now left|right]. rewrite <- E.
    apply (is_doc_in c d). apply (fwd_is_doc c Hwf d x). rewrite E. now left.
  Qed.

  Lemma forward_valid d : Forall (fun x => 1 <= N.to_nat x <= length (terms c)) (forward_list c d).
  Proof.
    destruct (forward_cases d) as [->|H]; [constructor|]. apply Forall_forall. intros x Hx.
    now apply (ids_range c Hwf (forward_list c d)).
  Qed.

  Lemma forwards_total : (N.of_nat (length (concat forwards)) < 18446744073709551616)%N.
  Proof.
    assert (H : length (concat forwards) <= 63 * length forwards).
    { apply concat_length_bound. apply Forall_forall. intros l Hl. apply in_map_iff in Hl. destruct Hl as (d & <- & _).
      destruct (forward_cases d) as [->|Hin]; [cbn; lia|]. destruct (wf_comps c Hwf) as (_ & _ & Hw).
      rewrite Forall_forall in Hw. destruct (Hw _ Hin) as [_ Hlen]. lia. }
    unfold forwards in H at 2. rewrite map_length, seq_length in H. pose proof (wf_universe c Hwf). lia.
  Qed.

  Lemma double_count {X Y} (R : X -> Y -> bool) xs ys :
    length (concat (map (fun x => filter (R x) ys) xs)) = length (concat (map (fun y => filter (fun x => R x y) xs) ys)).
  Proof.
    assert (Hc : forall y ys xs, length (concat (map (fun x => filter (R x) (y :: ys)) xs)) =
      length (filter (fun x => R x y) xs) + length (concat (map (fun x => filter (R x) ys) xs))).
    { clear. intros y ys. induction xs as [|x xs IH]; [reflexivity|]. cbn [map concat]. rewrite !app_length, IH.
      cbn [filter]. destruct (R x y); cbn [length]; lia. }
    assert (Hs : forall ys, length (concat (map (fun x => filter (R x) ys) xs)) = length (concat (map (fun y => filter (fun x => R x y) xs) ys))).
    { clear ys. induction ys as [|y ys IH].
      - cbn [map concat length]. clear. induction xs as [|x xs IH]; [reflexivity|]. cbn [map concat filter app]. exact IH.
      - rewrite Hc, IH. cbn [map concat]. now rewrite app_length. }
    apply Hs.
  Qed.
  Lemma postings_few : (N.of_nat (length (concat (postings c))) < 1099511627776)%N.
  Proof.
    unfold postings, posting_list. rewrite double_count.
    assert (H : length (concat (map (fun y => filter (fun x => existsb (N.eqb (N.of_nat x)) (forward_list c y)) (seq 1 (length (terms c)))) (seq 0 (universe c)))) <= 63 * universe c).
    { set (g := fun y : nat => filter _ _). replace (63 * universe c) with (63 * length (map g (seq 0 (universe c)))) by now rewrite map_length, seq_length.
      apply concat_length_bound. apply Forall_forall. intros l Hl. apply in_map_iff in Hl. destruct Hl as (d & <- & _).
      assert (Hf : length (forward_list c d) <= 63).
      { destruct (forward_cases d) as [->|Hin]; [cbn; lia|]. destruct (wf_comps c Hwf) as (_ & _ & Hw).
        rewrite Forall_forall in Hw. destruct (Hw _ Hin) as [_ Hlen]. lia. }
      rewrite <- (map_length N.of_nat). etransitivity; [|exact Hf]. apply NoDup_incl_length.
      - apply FinFun.Injective_map_NoDup; [intros a b; apply Nat2N.inj|]. apply NoDup_filter, seq_NoDup.
      - intros y Hy. apply in_map_iff in Hy. destruct Hy as (x & <- & Hx). apply filter_In in Hx. destruct Hx as [_ Hx].
        apply existsb_exists in Hx. destruct Hx as (z & Hz & E). apply N.eqb_eq in E. now rewrite E. }
    pose proof (wf_universe c Hwf). lia.
  Qed.
  Lemma docs_few : (N.of_nat (length (docs c)) < 1073741823)%N.
  Proof. rewrite (wf_docs_len c Hwf). apply (wf_few c Hwf). Qed.
  Lemma minimals_few : (N.of_nat (length (map (fun p => hd 0%nat p) (postings c))) < 1073741823)%N.
  Proof. rewrite map_length, postings_length. apply (wf_few c Hwf). Qed.

  Lemma forwards_le : Forall (Forall (fun x => (x <= N.of_nat (length (terms c)))%N)) forwards.
  Proof.
    apply Forall_forall. intros l Hl. apply in_map_iff in Hl. destruct Hl as (d & <- & _).
    eapply Forall_impl; [|apply forward_valid]. cbn. lia.
  Qed.

  Lemma minimals_ok : some_term_not_in_doc0 c ->
    Forall (fun x => (N.of_nat x < 4294967295)%N) (map (fun p => hd 0 p) (postings c)) /\
    exists x, In x (map (fun p => hd 0 p) (postings c)) /\ 0 < x.
  Proof.
    intros (x & Hx & H0). pose proof (postings_ok c Hwf) as Hp. split.
    - apply Forall_map. eapply Forall_impl; [|exact Hp]. cbn. intros l (Hl & _ & Hlt).
      destruct l as [|d l]; [congruence|]. inversion Hlt; subst. cbn. pose proof (wf_universe c Hwf). lia.
    - exists (hd 0 (posting_list c x)). split.
      + apply (in_map (fun p => hd 0 p)). eapply nth_error_In. now apply (postings_nth c x).
      + pose proof (posting_nonempty c Hwf x Hx). destruct (posting_list c x) as [|d l]; [congruence|]. cbn.
        destruct d; [exfalso; apply H0; now left|lia].
  Qed.

  (** The documents of the terms x+1 .. y+1. *)
  Lemma in_terms_range x y d : x <= y < length (terms c) ->
    In d (concat (firstn (y + 1 - x) (skipn x (postings c)))) <->
    exists ids t, is_doc c d ids /\ In t ids /\ (N.of_nat (x + 1) <= t <= N.of_nat (y + 1))%N.
  Proof.
    intros Hxy. rewrite in_concat.
    assert (Hn : forall i, i < length (firstn (y + 1 - x) (skipn x (postings c))) ->
      nth_error (firstn (y + 1 - x) (skipn x (postings c))) i = Some (posting_list c (x + i + 1)) /\ i <= y - x).
    { intros i Hi. rewrite firstn_length, skipn_length, postings_length in Hi.
      rewrite nth_error_firstn by lia. rewrite nth_error_skipn. split; [|lia].
      rewrite <- (postings_nth c (x + i + 1)) by lia. f_equal. lia. }
    split.
    - intros (l & Hl & Hd). apply In_nth_error in Hl. destruct Hl as [i Hi].
      assert (Hlt : i < length (firstn (y + 1 - x) (skipn x (postings c)))) by (apply nth_error_Some; congruence).
      destruct (Hn i Hlt) as [E Hiy]. rewrite Hi in E. injection E as ->. apply (in_posting c Hwf) in Hd.
      destruct Hd as (ids & Hdoc & Ht). exists ids, (N.of_nat (x + i + 1)). split; [exact Hdoc|]. split; [exact Ht|lia].
    - intros (ids & t & Hdoc & Ht & Hr). exists (posting_list c (N.to_nat t)). split.
      + set (i := N.to_nat t - 1 - x). assert (Hlt : i < length (firstn (y + 1 - x) (skipn x (postings c)))).
        { rewrite firstn_length, skipn_length, postings_length. unfold i. lia. }
        destruct (Hn i Hlt) as [E _]. apply nth_error_In in E. replace (x + i + 1) with (N.to_nat t) in E by (unfold i; lia). exact E.
      + apply (in_posting c Hwf). exists ids. split; [exact Hdoc|]. now rewrite N2Nat.id.
  Qed.

  (** Documents containing all the given terms. *)
  Definition mem (d : nat) (l : list nat) : bool := existsb (Nat.eqb d) l.
  Lemma mem_In d l : mem d l = true <-> In d l.
  Proof.
    unfold mem. rewrite existsb_exists. split.
    - intros (x & Hx & E). apply Nat.eqb_eq in E. now subst.
    - intros H. exists d. split; [exact H|apply Nat.eqb_refl].
  Qed.
  Definition all_of (ids : list nat) : list nat :=
    filter (fun d => forallb (fun t => mem d (posting_list c t)) ids) (seq 0 (universe c)).
  Lemma in_all_of ids d : ids <> [] -> In d (all_of ids) <-> exists w, is_doc c d w /\ forall t, In t ids -> In (N.of_nat t) w.
  Proof.
    intros Hne. unfold all_of. rewrite filter_In, in_seq, forallb_forall. split.
    - intros (Hd & H). exists (forward_list c d).
      assert (Hfw : forall t, In t ids -> In (N.of_nat t) (forward_list c d)).
      { intros t Ht. apply H in Ht. apply mem_In in Ht. apply (in_posting c Hwf) in Ht. destruct Ht as (w & Hw & Hin).
        now rewrite (is_doc_fwd c Hwf d w Hw). }
      split; [|exact Hfw]. destruct ids as [|t ids]; [congruence|]. eapply (fwd_is_doc c Hwf). apply Hfw. now left.
    - intros (w & Hw & H). split; [pose proof (is_doc_lt c Hwf d w Hw); lia|].
      intros t Ht. apply mem_In. apply (in_posting c Hwf). eauto.
  Qed.
  Lemma all_of_common ids : ids <> [] -> common (map (posting_list c) ids) (all_of ids).
  Proof.
    intros Hne. split; [apply filter_increasing, seq_increasing|]. intros d. rewrite (in_all_of ids d Hne). rewrite Forall_map, Forall_forall.
    split.
    - intros (w & Hw & H) t Ht. apply (in_posting c Hwf). eauto.
    - intros H. exists (forward_list c d).
      assert (Hfw : forall t, In t ids -> In (N.of_nat t) (forward_list c d)).
      { intros t Ht. apply H in Ht. apply (in_posting c Hwf) in Ht. destruct Ht as (w & Hw & Hin).
        now rewrite (is_doc_fwd c Hwf d w Hw). }
      split; [|exact Hfw]. destruct ids as [|t ids]; [congruence|]. eapply (fwd_is_doc c Hwf). apply Hfw. now left.
  Qed.
  Lemma all_of_lt ids : Forall (fun d => d < universe c) (all_of ids).
  Proof. apply Forall_forall. intros d Hd. apply filter_In in Hd. destruct Hd as [Hd _]. apply in_seq in Hd. lia. Qed.
  Lemma all_of_length ids : length (all_of ids) <= universe c.
  Proof. unfold all_of. etransitivity; [apply filter_len|]. now rewrite seq_length. Qed.
  Lemma all_of_single t : all_of [t] = posting_list c t.
  Proof.
    apply sorted_ext; [apply filter_increasing, seq_increasing|apply posting_increasing|].
    intros d. rewrite in_all_of by discriminate. rewrite (in_posting c Hwf). split; intros (w & Hw & H); exists w; (split; [exact Hw|]).
    - apply H. now left.
    - intros t' [<-|[]]. exact H.
  Qed.

  (** Prefixes of increasing lists. *)
  Lemma firstn_k_smallest k l : increasing l -> k_smallest_distinct k l (firstn k l).
  Proof.
    intros H. split; [|split; [|split]].
    - revert k. induction H as [|x l H IH Hx]; intros [|k]; cbn; try constructor; auto.
      apply Forall_forall. intros y Hy. rewrite Forall_forall in Hx. apply Hx. eapply In_firstn; eauto.
    - rewrite firstn_length. lia.
    - intros x Hx. eapply In_firstn; eauto.
    - intros y Hy. rewrite <- (firstn_skipn k l) in Hy. apply in_app_or in Hy. destruct Hy as [Hy|Hy]; [now left|right]. split.
      + rewrite firstn_length. assert (length (skipn k l) <> 0) by (destruct (skipn k l); [destruct Hy|discriminate]).
        rewrite skipn_length in *. lia.
      + intros x Hx. revert k x y Hx Hy. induction H as [|z l H IH Hz]; intros [|k] x y Hx Hy; cbn in *; try contradiction.
        destruct Hx as [<-|Hx]; [|now apply (IH k)]. rewrite Forall_forall in Hz. apply Hz.
        rewrite <- (firstn_skipn k l). apply in_or_app. now right.
  Qed.

  Lemma dedup_facts (ids : list nat) : ids <> [] -> Forall (fun i => 1 <= i <= length (terms c)) ids ->
    deduplicate ids <> [] /\ Forall (fun i => 1 <= i <= length (terms c)) (deduplicate ids) /\
    (forall x, In x (deduplicate ids) <-> In x ids) /\ length (deduplicate ids) <= length (terms c).
  Proof.
    intros Hne Hr. destruct (deduplicate_full ids ids) as (_ & Hin & Hinc); [tauto|].
    split; [|split; [|split]].
    - destruct ids as [|x ids]; [congruence|]. intros E. pose proof (proj2 (Hin x) (or_introl eq_refl)) as H. rewrite E in H. destruct H.
    - rewrite Forall_forall in *. intros x Hx. apply Hr. now apply Hin.
    - exact Hin.
    - rewrite <- (seq_length (length (terms c)) 1). apply NoDup_incl_length.
      + apply (NoDup_nth _ 0). intros i j Hi Hj E. destruct (Nat.lt_trichotomy i j) as [H|[H|H]]; [|exact H|].
        * specialize (Hinc i j ltac:(lia)). lia.
        * specialize (Hinc j i ltac:(lia)). lia.
      + intros x Hx. apply Hin in Hx. rewrite Forall_forall in Hr. specialize (Hr _ Hx). apply in_seq. lia.
  Qed.
End Common.

Lemma NoDup_app_l {A} (l1 l2 : list A) : NoDup (l1 ++ l2) -> NoDup l1.
Proof.
  induction l1 as [|x l1 IH]; intros H; [constructor|]. inversion H; subst. constructor; [|now apply IH].
  intros Hx. apply H2. apply in_or_app. now left.
Qed.
Lemma NoDup_app_r {A} (l1 l2 : list A) : NoDup (l1 ++ l2) -> NoDup l2.
Proof. induction l1 as [|x l1 IH]; intros H; [exact H|]. inversion H; subst. now apply IH. Qed.

Lemma NoDup_segment {A} (l : list A) n m : NoDup l -> NoDup (firstn n (skipn m l)).
Proof.
  intros H. rewrite <- (firstn_skipn m l) in H. apply NoDup_app_r in H.
  rewrite <- (firstn_skipn n (skipn m l)) in H. now apply NoDup_app_l in H.
Qed.

Lemma k_smallest_nodup k all out : NoDup all -> k_smallest k all out -> k_smallest_distinct k all out.
Proof.
  intros Hnd (Hs & Hl & rest & Hp & Hle).
  assert (Hnd2 : NoDup (out ++ rest)) by (eapply Permutation_NoDup; eauto).
  split; [|split; [|split]].
  - apply NoDup_app_l in Hnd2. clear -Hs Hnd2. induction Hs as [|y l H IH Hy]; [constructor|].
    inversion Hnd2; subst. constructor; [now apply IH|]. apply Forall_forall. intros z Hz. rewrite Forall_forall in Hy.
    specialize (Hy z Hz). destruct (Nat.eq_dec y z) as [->|]; [contradiction|lia].
  - lia.
  - intros y Hy. eapply Permutation_in; [symmetry; exact Hp|]. apply in_or_app. now left.
  - intros y Hy. pose proof (Permutation_in y Hp Hy) as Hy2. apply in_app_or in Hy2. destruct Hy2 as [Hy2|Hy2]; [now left|right].
    split.
    + apply Permutation_length in Hp. rewrite app_length in Hp. assert (length rest <> 0) by (destruct rest; [destruct Hy2|discriminate]). lia.
    + intros z Hz. specialize (Hle z y Hz Hy2). destruct (Nat.eq_dec z y) as [->|]; [|lia]. exfalso.
      clear -Hnd2 Hz Hy2. induction out as [|w out IH]; [destruct Hz|]. cbn in Hnd2. inversion Hnd2; subst.
      destruct Hz as [->|Hz]; [apply H1; apply in_or_app; now right|now apply IH].
Qed.


Section Docs.
  Variable c : collection.
  Hypothesis Hwf : wf_collection c.

  Lemma segment_docs lo hi d : lo <= hi <= length (comps c) ->
    In d (segment (docs c) lo hi) <-> exists i, lo <= i < hi /\ nth_error (docs c) i = Some d.
  Proof.
    intros H. unfold segment. pose proof (wf_docs_len c Hwf) as Hl. split.
    - intros Hd. apply In_nth_error in Hd. destruct Hd as [j Hj].
      assert (Hlt : j < length (firstn (hi - lo) (skipn lo (docs c)))) by (apply nth_error_Some; congruence).
      rewrite firstn_length, skipn_length in Hlt. rewrite nth_error_firstn, nth_error_skipn in Hj by lia. exists (lo + j). split; [lia|exact Hj].
    - intros (i & Hi & E). apply (nth_error_In _ (i - lo)). rewrite nth_error_firstn, nth_error_skipn by lia.
      rewrite <- E. f_equal. lia.
  Qed.


  (** Some token of the completion of [d] lies between [a] and [b]. *)
  Definition hit (a b : nat) (d : nat) : bool :=
    existsb (fun t => (N.of_nat a <=? t)%N && (t <=? N.of_nat b)%N) (forward_list c d).
  Lemma hit_true a b d : hit a b d = true <-> exists t, In t (forward_list c d) /\ (N.of_nat a <= t <= N.of_nat b)%N.
  Proof.
    unfold hit. rewrite existsb_exists. split; intros (t & Ht & H); exists t; (split; [exact Ht|]).
    - apply andb_true_iff in H. destruct H as [A B]. apply N.leb_le in A, B. lia.
    - apply andb_true_iff. split; apply N.leb_le; lia.
  Qed.

End Docs.
