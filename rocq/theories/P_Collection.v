(** Facts about collections: posting lists, forward lists, and what the id-level conditions mean for words. *)
From Coq Require Import Sorted Permutation.
From Verif Require Import Base S_Order P_Order S_Vocab S_Completions S_Parse S_Iter S_TopK S_Trie M_Auto S_Collection S_Room S_Found P_Kept P_Room.
Local Open Scope nat_scope.

Lemma find_doc_ok ds : forall cs d i, length ds = length cs -> NoDup ds -> nth_error ds i = Some d ->
  find_doc ds cs d = nth i cs [].
Proof.
  induction ds as [|d' ds IH]; intros cs d i Hl Hn Hi; [destruct i; discriminate|].
  destruct cs as [|ids cs]; [discriminate|]. inversion Hn; subst. destruct i as [|i]; cbn in *.
  - injection Hi as ->. now rewrite Nat.eqb_refl.
  - destruct (Nat.eqb_spec d' d) as [->|Hne].
    + exfalso. apply nth_error_In in Hi. contradiction.
    + apply IH; auto.
Qed.

Lemma find_doc_none ds : forall cs d, ~ In d ds -> find_doc ds cs d = [].
Proof.
  induction ds as [|d' ds IH]; intros cs d Hn; [reflexivity|]. destruct cs as [|ids cs]; [reflexivity|]. cbn.
  destruct (Nat.eqb_spec d' d) as [->|Hne]; [exfalso; apply Hn; now left|]. apply IH. intros H. apply Hn. now right.
Qed.

Lemma filter_len {A} (f : A -> bool) l : length (filter f l) <= length l.
Proof. induction l as [|x l IH]; cbn; [lia|]. destruct (f x); cbn; lia. Qed.

Lemma filter_increasing (f : nat -> bool) l : increasing l -> increasing (filter f l).
Proof.
  induction 1 as [|x l H IH Hx]; [constructor|]. cbn. destruct (f x); [|exact IH]. constructor; [exact IH|].
  apply Forall_forall. intros y Hy. apply filter_In in Hy. rewrite Forall_forall in Hx. now apply Hx.
Qed.

Lemma seq_increasing a m : increasing (seq a m).
Proof.
  revert a; induction m as [|m IH]; intros a; cbn; [constructor|]. constructor; [apply IH|].
  apply Forall_forall. intros y Hy. apply in_seq in Hy. lia.
Qed.

Lemma concat_length_bound {A} (ls : list (list A)) m : Forall (fun l => length l <= m) ls -> length (concat ls) <= m * length ls.
Proof. induction 1; cbn; rewrite ?app_length; lia. Qed.

Lemma sorted_ext l1 : forall l2, StronglySorted lt l1 -> StronglySorted lt l2 ->
  (forall x, In x l1 <-> In x l2) -> l1 = l2.
Proof.
  induction l1 as [|x l1 IH]; intros [|y l2] H1 H2 H.
  - reflexivity.
  - exfalso. apply (proj2 (H y)). now left.
  - exfalso. apply (proj1 (H x)). now left.
  - inversion H1 as [|? ? S1 F1]; inversion H2 as [|? ? S2 F2]; subst. rewrite Forall_forall in F1, F2.
    assert (x = y).
    { destruct (proj1 (H x) (or_introl eq_refl)) as [->|Hx]; [reflexivity|].
      destruct (proj2 (H y) (or_introl eq_refl)) as [->|Hy]; [reflexivity|].
      specialize (F1 _ Hy). specialize (F2 _ Hx). lia. }
    subst y. f_equal. apply IH; auto. intros z. specialize (H z). cbn in H. split; intros Hz.
    + destruct (proj1 H (or_intror Hz)) as [->|]; [|assumption]. specialize (F1 _ Hz). lia.
    + destruct (proj2 H (or_intror Hz)) as [->|]; [|assumption]. specialize (F2 _ Hz). lia.
Qed.

Lemma In_firstn {A} (x : A) n l : In x (firstn n l) -> In x l.
Proof. intros H. rewrite <- (firstn_skipn n l). apply in_or_app. now left. Qed.

Section Coll.
  Variable c : collection.
  Hypothesis Hwf : wf_collection c.
  Let T := length (terms c).
  Let n := length (comps c).

  Lemma is_doc_fwd d ids : is_doc c d ids -> forward_list c d = ids.
  Proof.
    intros (i & Hd & Hc). unfold forward_list. rewrite (find_doc_ok _ _ d i); auto using wf_docs_len, wf_docs_nodup.
    now apply nth_error_nth.
  Qed.

  Lemma is_doc_lt d ids : is_doc c d ids -> d < universe c.
  Proof. intros (i & Hd & _). apply nth_error_In in Hd. pose proof (wf_docs_lt c Hwf) as H. rewrite Forall_forall in H. auto. Qed.

  Lemma is_doc_in d ids : is_doc c d ids -> In ids (comps c).
  Proof. intros (i & _ & H). eapply nth_error_In; eauto. Qed.

  Lemma doc_of_index i : i < n -> is_doc c (nth i (docs c) 0) (nth i (comps c) []).
  Proof.
    intros Hi. exists i. split; apply nth_error_nth'; [rewrite (wf_docs_len c Hwf)|]; exact Hi.
  Qed.

  Lemma fwd_is_doc d x : In x (forward_list c d) -> is_doc c d (forward_list c d).
  Proof.
    intros Hx. destruct (in_dec Nat.eq_dec d (docs c)) as [Hin|Hn].
    - apply In_nth_error in Hin. destruct Hin as [i Hi]. exists i. split; [exact Hi|].
      assert (i < length (comps c)) by (rewrite <- (wf_docs_len c Hwf); apply nth_error_Some; congruence).
      unfold forward_list. rewrite (find_doc_ok _ _ d i); auto using wf_docs_len, wf_docs_nodup. now apply nth_error_nth'.
    - unfold forward_list in Hx. rewrite find_doc_none in Hx by assumption. destruct Hx.
  Qed.

  Lemma in_docs d : In d (docs c) <-> exists ids, is_doc c d ids.
  Proof.
    split.
    - intros H. apply In_nth_error in H. destruct H as [i Hi].
      assert (i < length (comps c)) by (rewrite <- (wf_docs_len c Hwf); apply nth_error_Some; congruence).
      exists (nth i (comps c) []). exists i. split; [exact Hi|]. now apply nth_error_nth'.
    - intros (ids & i & Hi & _). eapply nth_error_In; eauto.
  Qed.

  (** Posting lists. *)
  Lemma in_posting x d : In d (posting_list c x) <-> exists ids, is_doc c d ids /\ In (N.of_nat x) ids.
  Proof.
    unfold posting_list. rewrite filter_In, in_seq, existsb_exists. split.
    - intros (Hd & y & Hy & E). apply N.eqb_eq in E. subst y. exists (forward_list c d). split; [|exact Hy].
      eapply fwd_is_doc; eauto.
    - intros (ids & Hd & Hx). split; [pose proof (is_doc_lt d ids Hd); lia|]. exists (N.of_nat x).
      rewrite (is_doc_fwd d ids Hd). split; [exact Hx|apply N.eqb_refl].
  Qed.



  Lemma posting_increasing x : increasing (posting_list c x).
  Proof. apply filter_increasing, seq_increasing. Qed.

  Lemma posting_lt x : Forall (fun d => d < universe c) (posting_list c x).
  Proof. apply Forall_forall. intros d Hd. apply filter_In in Hd. destruct Hd as [Hd _]. apply in_seq in Hd. lia. Qed.

  Lemma posting_nonempty x : 1 <= x <= T -> posting_list c x <> [].
  Proof.
    intros Hx. destruct (wf_used c Hwf x Hx) as (ids & Hin & Hi). apply In_nth_error in Hin. destruct Hin as [i Hc].
    assert (i < length (docs c)) by (rewrite (wf_docs_len c Hwf); apply nth_error_Some; congruence).
    assert (H2 : In (nth i (docs c) 0) (posting_list c x)).
    { apply in_posting. exists ids. split; [|exact Hi]. exists i. split; [now apply nth_error_nth'|exact Hc]. }
    intros E. rewrite E in H2. destruct H2.
  Qed.

  Definition postings : list (list nat) := map (posting_list c) (seq 1 T).

  Lemma postings_length : length postings = T.
  Proof. unfold postings. now rewrite map_length, seq_length. Qed.

  Lemma postings_nth x : 1 <= x <= T -> nth_error postings (x - 1) = Some (posting_list c x).
  Proof.
    intros Hx. unfold postings. rewrite nth_error_map. rewrite (nth_error_nth' _ 0) by (rewrite seq_length; lia).
    rewrite seq_nth by lia. cbn. do 2 f_equal. lia.
  Qed.

  Lemma postings_ok : Forall (fun l => l <> [] /\ increasing l /\ Forall (fun x => x < universe c) l) postings.
  Proof.
    apply Forall_forall. intros l Hl. apply in_map_iff in Hl. destruct Hl as (x & <- & Hx). apply in_seq in Hx.
    split; [apply posting_nonempty; lia|]. split; [apply posting_increasing|apply posting_lt].
  Qed.


  Lemma postings_total : length (concat postings) <= universe c * T.
  Proof.
    rewrite <- postings_length. apply concat_length_bound. apply Forall_forall. intros l Hl.
    apply in_map_iff in Hl. destruct Hl as (x & <- & _). unfold posting_list.
    etransitivity; [apply filter_len|]. now rewrite seq_length.
  Qed.

  Lemma terms_nonempty : 0 < T.
  Proof. destruct (wf_terms c Hwf) as (_ & H & _). unfold T. destruct (terms c); [congruence|cbn; lia]. Qed.

  Lemma comps_nonempty : 0 < n.
  Proof. destruct (wf_comps c Hwf) as (_ & H & _). unfold n. destruct (comps c); [congruence|cbn; lia]. Qed.

  Lemma ids_range ids x : In ids (comps c) -> In x ids -> (0 < x)%N /\ 1 <= N.to_nat x <= T /\ (x < 4294967295)%N.
  Proof.
    intros Hi Hx. pose proof (wf_ids c Hwf) as H. rewrite Forall_forall in H. specialize (H _ Hi).
    rewrite Forall_forall in H. specialize (H _ Hx).
    destruct (wf_comps c Hwf) as (_ & _ & Hw). rewrite Forall_forall in Hw. destruct (Hw _ Hi) as [Hp _].
    rewrite Forall_forall in Hp. specialize (Hp _ Hx). cbn in Hp. fold T in H. lia.
  Qed.

  Lemma n_le_universe : n <= universe c.
  Proof.
    unfold n. rewrite <- (wf_docs_len c Hwf), <- (seq_length (universe c) 0). apply NoDup_incl_length; [apply (wf_docs_nodup c Hwf)|].
    intros d Hd. apply in_seq. pose proof (wf_docs_lt c Hwf) as H. rewrite Forall_forall in H. specialize (H _ Hd). lia.
  Qed.

  (** Words. *)
  Lemma terms_nodup : NoDup (terms c).
  Proof. apply lex_sorted_NoDup. apply (wf_terms c Hwf). Qed.

  Lemma word_nth x : 1 <= N.to_nat x <= T -> nth_error (terms c) (N.to_nat x - 1) = Some (word c x).
  Proof. intros H. unfold word. apply nth_error_nth'. fold T. lia. Qed.

  Lemma word_inj x y : 1 <= N.to_nat x <= T -> 1 <= N.to_nat y <= T -> word c x = word c y -> x = y.
  Proof.
    intros Hx Hy E. pose proof (word_nth x Hx) as A. pose proof (word_nth y Hy) as B. rewrite E in A. rewrite <- A in B.
    assert (N.to_nat y - 1 = N.to_nat x - 1); [|lia].
    apply (proj1 (NoDup_nth_error (terms c)) terms_nodup); [fold T; lia|exact B].
  Qed.

  Lemma word_in x : 1 <= N.to_nat x <= T -> In (word c x) (terms c).
  Proof. intros H. eapply nth_error_In. now apply word_nth. Qed.

  Lemma in_words ids t i : In ids (comps c) -> nth_error (terms c) i = Some t ->
    (In t (words_of c ids) <-> In (N.of_nat (i + 1)) ids).
  Proof.
    intros Hids Ht. assert (Hi : i < T) by (apply nth_error_Some; congruence).
    assert (Ew : word c (N.of_nat (i + 1)) = t).
    { unfold word. replace (N.to_nat (N.of_nat (i + 1)) - 1) with i by lia. now apply nth_error_nth. }
    unfold words_of. rewrite in_map_iff. split.
    - intros (x & E & Hx). destruct (ids_range ids x Hids Hx) as (_ & Hr & _).
      assert (x = N.of_nat (i + 1)); [|now subst]. apply word_inj; [lia|lia|congruence].
    - intros H. exists (N.of_nat (i + 1)). auto.
  Qed.

  (** The condition on the last token, at the level of ids. *)
  Lemma extends_ids (R : list N -> Prop) a b : exact_range T (fun i => R (nth i (terms c) [])) a b ->
    forall x, 1 <= N.to_nat x <= T -> (R (word c x) <-> (N.of_nat (a + 1) <= x <= N.of_nat (b + 1))%N).
  Proof.
    intros [Hab H] x Hx. unfold word. rewrite <- (H (N.to_nat x - 1)) by lia. lia.
  Qed.

  (** Prefix search at the level of ids. *)
  Lemma known_in w : known c w -> In w (terms c).
  Proof using Type. apply stored_In. Qed.
  Lemma known_nth i : i < T -> (known c (nth i (terms c) []) <-> i < length (stored (terms c))).
  Proof using Hwf.
    intros Hi. unfold known. split.
    - intros H. apply (In_nth _ _ []) in H. destruct H as (j & Hj & E). rewrite stored_nth in E by exact Hj.
      assert (j = i); [|lia]. pose proof (stored_le (terms c)).
      apply (proj1 (NoDup_nth (terms c) []) terms_nodup); [lia|exact Hi|exact E].
    - intros H. rewrite <- stored_nth by exact H. now apply nth_In.
  Qed.
  Lemma positions_all ts ids : positions (stored (terms c)) ts ids -> Forall (known c) ts ->
    words_of c (map N.of_nat ids) = ts /\ Forall (fun i => 1 <= i <= T) ids.
  Proof.
    induction 1 as [|t ts i ids Hi H IH|t ts ids Hn H IH]; intros Hall.
    - split; constructor.
    - inversion Hall; subst. destruct IH as [A B]; [assumption|]. split.
      + cbn. f_equal; [|exact A]. unfold word. replace (N.to_nat (N.of_nat (i + 1)) - 1) with i by lia.
        apply nth_error_nth. now apply stored_nth_error.
      + constructor; [|exact B]. apply stored_nth_error in Hi. assert (i < T) by (apply nth_error_Some; congruence). lia.
    - inversion Hall; subst. contradiction.
  Qed.

  Lemma words_inj ids1 : forall ids2, Forall (fun x => 1 <= N.to_nat x <= T) ids1 -> Forall (fun x => 1 <= N.to_nat x <= T) ids2 ->
    words_of c ids1 = words_of c ids2 -> ids1 = ids2.
  Proof.
    induction ids1 as [|x ids1 IH]; intros [|y ids2] H1 H2 E; try discriminate; [reflexivity|].
    inversion H1; inversion H2; subst. cbn in E. injection E as E1 E2. f_equal; [now apply word_inj|]. now apply IH.
  Qed.

  Lemma prefix_match_ids ts (R : list N -> Prop) ids prefix a b : In ids (comps c) ->
    positions (stored (terms c)) ts prefix -> Forall (known c) ts ->
    exact_range T (fun i => R (nth i (terms c) [])) a b ->
    (prefix_by c R ts (words_of c ids) <->
     continues (map N.of_nat prefix) (N.of_nat (a + 1)) (N.of_nat (b + 1)) ids).
  Proof.
    intros Hids Hp Hall Hr. destruct (positions_all ts prefix Hp Hall) as [Ew Hpr].
    assert (Hidr : Forall (fun x => 1 <= N.to_nat x <= T) ids).
    { apply Forall_forall. intros x Hx. now apply (ids_range ids). }
    split.
    - intros (_ & w & rest & E & Hw). unfold words_of in E.
      apply map_eq_app in E. destruct E as (l1 & l2 & -> & E1 & E2). apply map_eq_cons in E2.
      destruct E2 as (x & r & -> & <- & _). apply Forall_app in Hidr. destruct Hidr as [Hl1 Hl2].
      inversion Hl2; subst. exists x, r. split.
      + f_equal. apply words_inj; [assumption| |unfold words_of at 1; congruence].
        apply Forall_map. eapply Forall_impl; [|exact Hpr]. cbn. lia.
      + now apply (extends_ids R a b Hr).
    - intros (x & rest & -> & Hx). split; [exact Hall|]. exists (word c x), (words_of c rest). split.
      + unfold words_of in *. rewrite map_app. cbn. now rewrite Ew.
      + apply (extends_ids R a b Hr); [|exact Hx]. rewrite Forall_forall in Hidr. apply Hidr.
        apply in_or_app. right. now left.
  Qed.

  Lemma prefix_match_known ts (R : list N -> Prop) ids : In ids (comps c) -> prefix_by c R ts (words_of c ids) ->
    Forall (known c) ts /\ exists i, i < T /\ R (nth i (terms c) []).
  Proof.
    intros Hids (Hk & w & rest & E & Hw).
    assert (Hall : forall v, In v (words_of c ids) -> In v (terms c)).
    { intros v Hv. apply in_map_iff in Hv. destruct Hv as (x & <- & Hx). apply word_in. now apply (ids_range ids). }
    rewrite E in Hall. split; [exact Hk|].
    assert (Hin : In w (terms c)) by (apply Hall; apply in_or_app; right; now left).
    apply (In_nth _ _ []) in Hin. destruct Hin as (i & Hi & <-). eauto.
  Qed.

  (** Conjunctive search at the level of ids. *)
  Lemma positions_in ts ids : positions (stored (terms c)) ts ids ->
    forall i, (exists t, In t ts /\ nth_error (stored (terms c)) i = Some t) <-> In (i + 1) ids.
  Proof.
    induction 1 as [|t ts j ids Hj H IH|t ts ids Hn H IH]; intros i.
    - cbn. split; [intros (t & [] & _)|intros []].
    - cbn. rewrite <- IH. split.
      + intros (t' & [<-|Ht'] & Hi); [|right; eauto]. left. f_equal.
        apply (proj1 (NoDup_nth_error _) (NoDup_stored _ terms_nodup)); [apply nth_error_Some; congruence|congruence].
      + intros [E|(t' & Ht' & Hi)]; [|eauto]. assert (i = j) by lia. subst. eauto.
    - rewrite <- IH. split.
      + intros (t' & [<-|Ht'] & Hi); [|eauto]. exfalso. apply Hn. eapply nth_error_In; eauto.
      + intros (t' & Ht' & Hi). exists t'. split; [now right|exact Hi].
  Qed.

  Lemma positions_range ts ids : positions (stored (terms c)) ts ids -> Forall (fun i => 1 <= i <= T) ids.
  Proof.
    induction 1 as [|t ts j ids Hj H IH|t ts ids Hn H IH]; [constructor| |exact IH].
    constructor; [|exact IH]. apply stored_nth_error in Hj. assert (j < T) by (apply nth_error_Some; congruence). lia.
  Qed.

  Lemma conj_known_ids ts prefix : positions (stored (terms c)) ts prefix -> forall ids, In ids (comps c) ->
    ((forall t, In t ts -> known c t -> In t (words_of c ids)) <-> (forall i, In i prefix -> In (N.of_nat i) ids)).
  Proof.
    intros Hp ids Hids. pose proof (positions_in ts prefix Hp) as Hpi. pose proof (positions_range ts prefix Hp) as Hpr. split.
    - intros H1 i Hi. rewrite Forall_forall in Hpr. specialize (Hpr _ Hi).
      replace i with ((i - 1) + 1) in Hi by lia. apply Hpi in Hi. destruct Hi as (t & Ht & Hnt).
      replace i with ((i - 1) + 1) by lia. apply (in_words ids t (i - 1) Hids (stored_nth_error _ _ _ Hnt)).
      apply H1; [exact Ht|]. eapply nth_error_In; eauto.
    - intros H1 t Ht Hin. apply In_nth_error in Hin. destruct Hin as [i Hi].
      apply (in_words ids t i Hids (stored_nth_error _ _ _ Hi)). apply H1. apply Hpi. eauto.
  Qed.

  Lemma conj_match_ids ts (R : list N -> Prop) ids prefix a b : In ids (comps c) ->
    positions (stored (terms c)) ts prefix ->
    exact_range T (fun i => R (nth i (terms c) [])) a b ->
    (conj_by c R ts (words_of c ids) <->
     (forall i, In i prefix -> In (N.of_nat i) ids) /\
     exists x, In x ids /\ (N.of_nat (a + 1) <= x <= N.of_nat (b + 1))%N).
  Proof.
    intros Hids Hp Hr. pose proof (conj_known_ids ts prefix Hp ids Hids) as Hkn.
    unfold conj_by. split.
    - intros (H1 & w & Hw & Hpw). split; [now apply Hkn|].
      apply in_map_iff in Hw. destruct Hw as (x & <- & Hx). exists x. split; [exact Hx|].
        apply (extends_ids R a b Hr); [now apply (ids_range ids)|exact Hpw].
    - intros (H1 & x & Hx & Hxr). split; [now apply Hkn|].
      exists (word c x). split; [now apply in_map|]. apply (extends_ids R a b Hr); [now apply (ids_range ids)|exact Hxr].
  Qed.

  Lemma conj_match_suffix ts (R : list N -> Prop) ids : In ids (comps c) -> conj_by c R ts (words_of c ids) ->
    exists i, i < T /\ R (nth i (terms c) []).
  Proof.
    intros Hids (_ & w & Hw & Hp). apply in_map_iff in Hw. destruct Hw as (x & <- & Hx).
    destruct (ids_range ids x Hids Hx) as (_ & Hr & _). exists (N.to_nat x - 1). split; [lia|exact Hp].
  Qed.

  (** From doc ids to answers. *)
  Definition answer_of (ds : list nat) : list (nat * list N) := map (fun d => (d, text c (forward_list c d))) ds.

  Lemma answer_of_ok (P : list (list N) -> Prop) k all ds :
    (forall d, In d all <-> exists ids, is_doc c d ids /\ P (words_of c ids)) ->
    k_smallest_distinct k all ds -> topk_answer c P k (answer_of ds).
  Proof.
    intros Hall (Hs & Hl & Hin & Hmiss). unfold answer_of.
    assert (Ef : map fst (map (fun d => (d, text c (forward_list c d))) ds) = ds).
    { rewrite map_map. cbn. apply map_id. }
    split; [now rewrite Ef|]. split; [now rewrite map_length|]. split.
    - intros d s H. apply in_map_iff in H. destruct H as (d' & E & Hd). injection E as <- <-.
      apply Hin in Hd. apply Hall in Hd. destruct Hd as (ids & Hd & HP). exists ids. rewrite (is_doc_fwd d' ids Hd). auto.
    - intros d ids Hd HP. assert (Ha : In d all) by (apply Hall; eauto). apply Hmiss in Ha. destruct Ha as [Ha|[Hk Hlt]].
      + left. apply in_map_iff. exists d. split; [|exact Ha]. now rewrite (is_doc_fwd d ids Hd).
      + right. rewrite map_length. split; [exact Hk|]. apply Forall_forall. intros r Hr. apply in_map_iff in Hr.
        destruct Hr as (d' & <- & Hd'). cbn. now apply Hlt.
  Qed.

  (** The same for any k. *)
  Lemma answer_of_any (P : list (list N) -> Prop) k all ds :
    (forall d, In d all <-> exists ids, is_doc c d ids /\ P (words_of c ids)) ->
    k_smallest_distinct (if k =? 0 then S (length all) else k) all ds -> topk_answer c P (limit c k) (answer_of ds).
  Proof.
    intros Hall H. unfold limit. destruct (k =? 0); [|now apply (answer_of_ok P k all)].
    apply (answer_of_ok P _ all ds Hall). destruct H as (Hs & Hl & Hin & Hmiss).
    assert (Hnd : NoDup ds).
    { clear -Hs. induction Hs as [|x l H IH Hx]; constructor; [|exact IH]. rewrite Forall_forall in Hx. intros Hi. specialize (Hx x Hi). lia. }
    split; [exact Hs|]. split; [|split; [exact Hin|]].
    - rewrite <- (wf_docs_len c Hwf). apply NoDup_incl_length; [exact Hnd|]. intros d Hd. apply Hin, Hall in Hd.
      destruct Hd as (ids & (i & Hi & _) & _). eapply nth_error_In; eauto.
    - intros y Hy. left. destruct (Hmiss y Hy) as [A|[A _]]; [exact A|]. pose proof (NoDup_incl_length Hnd Hin). lia.
  Qed.
  Lemma limit_id k : 1 <= k -> limit c k = k.
  Proof using Type. intros H. unfold limit. destruct (Nat.eqb_spec k 0); [lia|reflexivity]. Qed.

  (** Answers for conditions that agree on the completions. *)
  Lemma topk_answer_ext (P Q : list (list N) -> Prop) k out :
    (forall ids, In ids (comps c) -> (P (words_of c ids) <-> Q (words_of c ids))) -> topk_answer c P k out -> topk_answer c Q k out.
  Proof.
    intros H (A & B & C & D). split; [exact A|]. split; [exact B|].
    assert (Hin : forall d ids, is_doc c d ids -> In ids (comps c)) by (intros d ids (i & _ & E); eapply nth_error_In; eauto).
    split.
    - intros d s Hd. destruct (C d s Hd) as (ids & E & HP & Es). exists ids. split; [exact E|]. split; [|exact Es]. apply H; eauto.
    - intros d ids Hd HQ. apply D; [exact Hd|]. apply H; eauto.
  Qed.

  (** F1 and F23 excluded. *)
  Lemma known_all w : sizes_ok c -> In w (terms c) -> known c w.
  Proof using Type. intros H Hw. unfold known. now rewrite stored_all. Qed.
  Lemma words_in ids w : In ids (comps c) -> In w (words_of c ids) -> In w (terms c).
  Proof using Hwf. intros Hids H. apply in_map_iff in H. destruct H as (x & <- & Hx). apply word_in. now apply (ids_range ids). Qed.

  Lemma found_prefix last w : sizes_ok c -> first_term_ok c last -> In w (terms c) -> (found c last w <-> is_prefix last w).
  Proof using Type.
    intros H17 H Hw. unfold found, found_by. split; [tauto|]. intros Hp. split; [split; [exact Hp|]|right; now apply known_all]. intros ->.
    destruct last as [|x l]; [now left|right]. apply H; [discriminate|exact Hp].
  Qed.
  Lemma prefix_by_found ts last ids : sizes_ok c -> first_term_ok c last -> In ids (comps c) ->
    (prefix_by c (found c last) ts (words_of c ids) <-> prefix_match ts last (words_of c ids)).
  Proof using Hwf.
    intros H17 H Hids. pose proof (words_in ids) as Hin. split.
    - intros (_ & w & rest & E & Hw). exists w, rest. split; [exact E|]. refine (proj1 (found_prefix last w H17 H _) Hw).
      apply Hin; [exact Hids|]. rewrite E. apply in_or_app. right. now left.
    - intros (w & rest & E & Hw). split.
      + apply Forall_forall. intros t Ht. apply known_all; [exact H17|]. apply Hin; [exact Hids|]. rewrite E. apply in_or_app. now left.
      + exists w, rest. split; [exact E|]. refine (proj2 (found_prefix last w H17 H _) Hw).
        apply Hin; [exact Hids|]. rewrite E. apply in_or_app. right. now left.
  Qed.
  Lemma conj_by_found ts last ids : sizes_ok c -> first_term_ok c last -> In ids (comps c) ->
    (conj_by c (found c last) ts (words_of c ids) <-> conj_match c ts last (words_of c ids)).
  Proof using Hwf.
    intros H17 H Hids. pose proof (words_in ids) as Hin. split; intros (A & w & Hi & Hw).
    - split; [intros t Ht Hk; apply A; auto using known_all|]. exists w. split; [exact Hi|]. refine (proj1 (found_prefix last w H17 H _) Hw). auto.
    - split; [intros t Ht Hk; apply A; auto using known_in|]. exists w. split; [exact Hi|]. refine (proj2 (found_prefix last w H17 H _) Hw). auto.
  Qed.

  (** F1, F2 and F23 excluded. *)
  Lemma prefix_found_match ts last ids : sizes_ok2 c -> first_term_ok c last -> first_completion_ok c ts last -> In ids (comps c) ->
    (prefix_found c ts last (words_of c ids) <-> prefix_match ts last (words_of c ids)).
  Proof using Hwf.
    intros [H17 H17b] Hf Hfc Hids. unfold prefix_found. rewrite (prefix_by_found ts last ids H17 Hf Hids). split; [tauto|].
    intros Hm. split; [exact Hm|]. split; [exists ids; rewrite stored_all; auto|].
    intros E. destruct Hm as (w & rest & Ews & Hw). destruct (Hfc w rest) as [-> Hmin]; [congruence|exact Hw|].
    exists w. split; [exact Ews|]. intros v Hv Hfv. apply Hmin; [exact Hv|]. exact (proj1 (found_prefix last v H17 Hf Hv) Hfv).
  Qed.
  (** [fits_pool] suffices. *)
  Lemma room_for_fits ids : forall o, Forall (fun x => 1 <= N.to_nat x <= length (terms c)) ids -> o + length (text c ids) + 256 <= POOL_SIZE -> room_for c o ids.
  Proof using Hwf.
    induction ids as [|x ids IH]; intros o Hr Ho; [exact I|]. inversion Hr as [|? ? Hx Hids]; subst. cbn [room_for].
    pose proof (reach_le (terms c) (N.to_nat x - 1) (proj2 (proj2 (wf_terms c Hwf))) ltac:(lia)) as H.
    split; [lia|]. destruct ids as [|y ids]; [exact I|].
    assert (Et : text c (x :: y :: ids) = word c x ++ 32%N :: text c (y :: ids)) by reflexivity.
    rewrite Et, app_length in Ho. cbn [length] in Ho. apply IH; [exact Hids|lia].
  Qed.
  Lemma has_room_fits (P : list (list N) -> Prop) out : forall o,
    (forall d s, In (d, s) out -> exists ids, is_doc c d ids /\ P (words_of c ids) /\ s = text c ids) ->
    o + length (concat (map snd out)) + 256 <= POOL_SIZE -> has_room c o out.
  Proof using Hwf.
    induction out as [|[d s] out IH]; intros o H Ho; [exact I|]. cbn [has_room map snd concat] in *. rewrite app_length in Ho. split.
    - intros ids Hd. destruct (H d s ltac:(now left)) as (ids' & Hd' & _ & ->).
      assert (ids' = ids) by (rewrite <- (is_doc_fwd d ids Hd); symmetry; now apply is_doc_fwd). subst ids'.
      apply room_for_fits; [|lia]. apply Forall_forall. intros x Hx. apply (ids_range ids); [now apply (is_doc_in d)|exact Hx].
    - apply IH; [|lia]. intros d' s' Hin. apply H. now right.
  Qed.
  Lemma reportable_all (P : list (list N) -> Prop) out : sizes_ok c ->
    (forall d s, In (d, s) out -> exists ids, is_doc c d ids /\ P (words_of c ids) /\ s = text c ids) -> fits_pool out -> length out <= MAX_K -> reportable c out.
  Proof using Hwf.
    intros H17 H Hf Hl. split; [exact Hl|]. split; [now apply (has_room_fits P)|]. intros d s ids x _ (i & _ & Hi) Hx. apply known_all; [exact H17|]. apply word_in.
    apply (ids_range ids); [eapply nth_error_In; eauto|exact Hx].
  Qed.
  Lemma reportable2_all (P : list (list N) -> Prop) out : sizes_ok2 c ->
    (forall d s, In (d, s) out -> exists ids, is_doc c d ids /\ P (words_of c ids) /\ s = text c ids) -> fits_pool out -> length out <= MAX_K -> reportable2 c out.
  Proof using Hwf.
    intros [H17 H17b] H Hf Hl. split; [now apply (reportable_all P)|]. intros d s Hd. destruct (H d s Hd) as (ids & (i & Hi & _) & _).
    rewrite stored_all; [eapply nth_error_In; eauto|]. rewrite (wf_docs_len c Hwf). exact H17b.
  Qed.
  (** Everything prefix search finds is stored. *)
  Lemma prefix_found_stored ts last k out d s : topk_answer c (prefix_found c ts last) k out -> In (d, s) out -> In d (stored (docs c)).
  Proof using Hwf.
    intros (_ & _ & H & _) Hd. destruct (H d s Hd) as (ids & (i & Hi & Hc) & (_ & (ids' & Hin & E) & _) & _).
    assert (ids = ids').
    { apply words_inj; [| |exact E]; apply Forall_forall; intros x Hx; eapply ids_range; eauto; [eapply nth_error_In; eauto|now apply stored_In]. }
    subst ids'. apply In_nth_error in Hin. destruct Hin as [j Hj].
    assert (j = i).
    { pose proof (stored_nth_error _ _ _ Hj) as Hj'. apply (proj1 (NoDup_nth_error (comps c)) (lex_sorted_NoDup _ (proj1 (wf_comps c Hwf)))); [apply nth_error_Some; congruence|congruence]. }
    subst j. apply (nth_error_In _ i). apply stored_nth_error_lt; [exact Hi|].
    rewrite stored_length, (wf_docs_len c Hwf), <- (stored_length (comps c)). apply nth_error_Some. congruence.
  Qed.

  Lemma answer_nil (P : list (list N) -> Prop) k : (forall ids, In ids (comps c) -> ~ P (words_of c ids)) -> topk_answer c P k [].
  Proof.
    intros H. split; [constructor|]. split; [cbn; lia|]. split; [intros d s []|].
    intros d ids Hd HP. exfalso. exact (H ids (is_doc_in d ids Hd) HP).
  Qed.

  (** Answers are unique. *)

  Lemma answer_text (P : list (list N) -> Prop) k out : topk_answer c P k out -> out = answer_of (map fst out).
  Proof.
    intros (_ & _ & H & _). unfold answer_of. rewrite map_map. rewrite <- (map_id out) at 1.
    apply map_ext_in. intros [d s] Hin. destruct (H d s Hin) as (ids & Hd & _ & ->). cbn. now rewrite (is_doc_fwd d ids Hd).
  Qed.

  Lemma answer_unique (P : list (list N) -> Prop) k out1 out2 : topk_answer c P k out1 -> topk_answer c P k out2 -> out1 = out2.
  Proof.
    intros A1 A2. rewrite (answer_text P k out1 A1), (answer_text P k out2 A2). f_equal.
    assert (Sub : forall o1 o2, topk_answer c P k o1 -> topk_answer c P k o2 -> forall d, In d (map fst o1) -> In d (map fst o2)).
    { clear. intros o1 o2 (S1 & L1 & I1 & M1) (S2 & L2 & I2 & M2) d Hd.
      apply in_map_iff in Hd. destruct Hd as ([d' s] & Ed & Hin). cbn in Ed. subst d'.
      destruct (I1 d s Hin) as (ids & Hdoc & HP & ->). destruct (M2 d ids Hdoc HP) as [H|[Hk Hlt]].
      - apply in_map_iff. exists (d, text c ids). auto.
      - (* o2 is full of smaller ones; they all are in o1 *)
        exfalso. assert (Hincl : incl (map fst o2) (map fst o1)).
        { intros x Hx. apply in_map_iff in Hx. destruct Hx as ([x' s] & Ex & Hx). cbn in Ex. subst x'.
          destruct (I2 x s Hx) as (ids' & Hdoc' & HP' & ->). rewrite Forall_forall in Hlt. specialize (Hlt _ Hx). cbn in Hlt.
          destruct (M1 x ids' Hdoc' HP') as [H|[_ Hl]].
          - apply in_map_iff. exists (x, text c ids'). auto.
          - rewrite Forall_forall in Hl. specialize (Hl _ Hin). cbn in Hl. lia. }
        assert (Hnd : forall l, StronglySorted lt l -> NoDup l).
        { induction 1 as [|x l H IH Hx]; constructor; [|assumption]. intros Hi. rewrite Forall_forall in Hx. specialize (Hx _ Hi). lia. }
        assert (Hd2 : ~ In d (map fst o2)).
        { intros Hi. apply in_map_iff in Hi. destruct Hi as (r & Er & Hr). rewrite Forall_forall in Hlt. specialize (Hlt _ Hr). lia. }
        assert (Hc : length (d :: map fst o2) <= length (map fst o1)).
        { apply NoDup_incl_length; [constructor; [exact Hd2|now apply Hnd]|].
          intros x [<-|Hx]; [|now apply Hincl]. apply in_map_iff. exists (d, text c ids). auto. }
        cbn in Hc. rewrite !map_length in Hc. lia. }
    apply sorted_ext; [apply A1|apply A2|]. intros x. split; apply Sub; assumption.
  Qed.
End Coll.
