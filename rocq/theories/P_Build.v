(** Building an index: exactly when it throws. *)
From Verif Require Import Base S_Order S_Vocab S_Completions M_Fc P_FcGen P_Fc M_IntFc P_IntFc P_Kept.
From Verif Require Import M_Heap M_Iter S_Iter M_TopK S_TopK M_Trie S_Trie P_TrieFinal M_Containers S_Containers P_Containers.
From Verif Require Import M_Auto S_Collection P_Collection P_Query M_Auto1 P_Auto1 M_Auto2 P_Core2 P_Auto2 M_Blocked S_Blocked P_BlockIndex P_Auto4 S_Build.
Local Open Scope nat_scope.

(** compact_vector refuses width 0. *)
Definition throws_on_width0 (K : containers) : Prop := forall l, k_vec K 0 l = Exn.

Lemma all_zero_or l : (exists x, In x l /\ 0 < x) \/ Forall (fun x => x = 0) l.
Proof.
  induction l as [|x l [(y & Hy & Hp)|H]]; [now right|left; exists y; split; [now right|exact Hp]|].
  destruct x; [right; now constructor|left; exists (S x); split; [now left|lia]].
Qed.

Lemma NoDup_firstn {A} (l : list A) n : NoDup l -> NoDup (firstn n l).
Proof.
  intros H. revert n. induction H as [|x l Hx H IH]; intros [|n]; cbn; try constructor; [|apply IH]. intros Hi. apply Hx. eapply In_firstn; eauto.
Qed.

Section Build.
  Variable K : containers.
  Hypothesis HK : containers_ok K.
  Hypothesis H0 : throws_on_width0 K.

  Lemma ulist_exact l : l <> [] -> (N.of_nat (length l) < 1073741823)%N -> Forall (fun x => (N.of_nat x < 4294967295)%N) l ->
    builds_iff (ulist_build K l) (exists x, In x l /\ 0 < x).
  Proof.
    intros Hne Hlen Hl. destruct (all_zero_or l) as [H|H].
    - destruct (ulist_build_ok K HK l Hlen Hl H) as (ul & E & _). left. split; [now exists ul|exact H].
    - right. split; [|intros (x & Hx & Hp); rewrite Forall_forall in H; specialize (H x Hx); lia].
      unfold ulist_build. destruct (ok_rmq K HK l Hne Hlen) as (f & Ef & _). rewrite Ef. cbn [bind].
      assert (E : fold_right N.max 0%N (map N.of_nat l) = 0%N) by (clear -H; induction H as [|x l -> H IH]; cbn; [reflexivity|rewrite IH; reflexivity]).
      unfold vec_build. destruct (map N.of_nat l) eqn:El; [destruct l; [congruence|discriminate]|]. rewrite E.
      replace (ceil_log2 (0 + 1)) with 0 by reflexivity. now rewrite H0.
  Qed.

  Variable c : collection.
  Hypothesis Hwf : wf_collection c.

  Lemma minimals_exact : builds_iff (ulist_build K (map (fun p => hd 0 p) (postings c))) (some_term_not_in_doc0 c).
  Proof.
    destruct (ulist_exact (map (fun p => hd 0 p) (postings c))) as [(E & x & Hx & Hp)|(E & Hn)].
    - intros E. apply (f_equal (@length nat)) in E. rewrite map_length, postings_length in E. pose proof (terms_nonempty c Hwf). cbn in E. lia.
    - exact (minimals_few c Hwf).
    - apply Forall_map. eapply Forall_impl; [|exact (postings_ok c Hwf)]. cbn. intros l (Hl & _ & Hlt). destruct l as [|x l]; [congruence|].
      inversion Hlt; subst. cbn. pose proof (wf_universe c Hwf). lia.
    - left. split; [exact E|]. apply in_map_iff in Hx as (p & <- & Hin). unfold postings in Hin. apply in_map_iff in Hin as (t & <- & Ht).
      apply in_seq in Ht. exists t. split; [lia|]. intros Hz.
      pose proof (posting_increasing c t) as Hi. destruct (posting_list c t) as [|y l]; [destruct Hz|]. cbn in Hp.
      inversion Hi as [|? ? _ Hi2]; subst. destruct Hz as [Hz|Hz]; [lia|]. rewrite Forall_forall in Hi2. specialize (Hi2 0 Hz). lia.
    - right. split; [exact E|]. intros Hs. apply Hn. exact (proj2 (minimals_ok c Hwf Hs)).
  Qed.

  Lemma docs_exact : builds_iff (ulist_build K (docs c)) (some_doc_positive c).
  Proof.
    apply ulist_exact.
    - intros E. pose proof (comps_nonempty c Hwf) as H. pose proof (wf_docs_len c Hwf) as H2. rewrite E in H2. cbn in H2. lia.
    - now apply docs_few.
    - eapply Forall_impl; [|apply (wf_docs_lt c Hwf)]. cbn. intros d' Hd'. pose proof (wf_universe c Hwf). lia.
  Qed.

  Lemma ac1_exact : builds_iff (ac1_build K (files_of c)) (some_doc_positive c /\ some_term_not_in_doc0 c).
  Proof.
    unfold ac1_build, files_of. cbn [f_dict f_mapped f_levels f_universe f_inverted f_forward].
    destruct (trie_spec (comps c) (docs c) (wf_comps c Hwf) (wf_docs_len c Hwf)) as (ta & Et & Edocs & Hmono & Htrie).
    assert (Hfit : trie_fits ta).
    { rewrite (trie_build_eq (comps c) (wf_comps c Hwf) (docs c) (wf_docs_len c Hwf)) in Et. injection Et as <-.
      apply trie_fits_ok; [apply (wf_comps c Hwf)|]. pose proof (n_le_universe c Hwf). pose proof (wf_universe c Hwf). lia. }
    rewrite Et. cbn [bind].
    destruct (fc_build_layout (terms c) (proj1 (proj2 (wf_terms c Hwf)))) as (d & Ed & _). rewrite Ed. cbn [bind].
    pose proof (postings_ok c Hwf) as Hp.
    fold (postings c). rewrite minimal_doc_ids_ok by (eapply Forall_impl; [|exact Hp]; cbn; tauto). cbn [bind].
    destruct (lists_build_ok K HK c Hwf) as (iterator & at_ & Ei & _ & _). rewrite Ei. cbn [bind].
    destruct (fwd_build_ok K HK (length (terms c)) (forwards c)) as (fw & Ef & Hf).
    { apply T_bound; assumption. } { apply forwards_le; assumption. } { apply forwards_total; assumption. }
    fold (forwards c). rewrite Ef. cbn [bind]. rewrite Edocs.
    destruct docs_exact as [((ul & Eu) & Hpos)|(Eu & Hpos)]; rewrite Eu; cbn [bind]; [|right; split; [reflexivity|tauto]].
    destruct minimals_exact as [((ul2 & Eu2) & Hm)|(Eu2 & Hm)]; rewrite Eu2; cbn [bind]; [|right; split; [reflexivity|tauto]].
    destruct (trie_store_ok K HK ta Hmono Hfit) as (t & Es & Ht). rewrite Es. cbn [bind]. left. split; [eauto|tauto].
  Qed.

  Lemma core_exact : builds_iff (core_build K (files_of c)) (some_kept_doc_positive c).
  Proof.
    unfold core_build, files_of. cbn [f_dict f_mapped f_levels f_universe]. pose proof (wf_docs_len c Hwf) as Hdl.
    assert (E1 : map snd (records (docs c) (comps c)) = map terminated (comps c)).
    { unfold records. clear -Hdl. revert Hdl. generalize (comps c), (docs c). intros cs. induction cs as [|a cs IH]; intros [|d ds] H; try discriminate; [reflexivity|].
      cbn in *. f_equal. apply IH. congruence. }
    assert (E2 : map fst (records (docs c) (comps c)) = docs c).
    { unfold records. clear -Hdl. revert Hdl. generalize (comps c), (docs c). intros cs. induction cs as [|a cs IH]; intros [|d ds] H; try discriminate; [reflexivity|].
      cbn in *. f_equal. apply IH. congruence. }
    assert (E3 : length (records (docs c) (comps c)) = length (docs c)) by (rewrite <- E2 at 2; now rewrite map_length).
    rewrite E1, E2, E3. destruct (ifc_build_layout (comps c) (wf_comps c Hwf)) as (cm & Ecm & _). rewrite Ecm. cbn [bind].
    destruct (docid_to_lexid_any (universe c) (docs c) (wf_docs_nodup c Hwf) (proj1 (Forall_forall _ _) (wf_docs_lt c Hwf))) as (m & Em & Lm & Hm). rewrite Em. cbn [bind].
    destruct (fc_build_layout (terms c) (proj1 (proj2 (wf_terms c Hwf)))) as (d & Ed & _). rewrite Ed. cbn [bind].
    pose proof (comps_nonempty c Hwf) as Hcne. pose proof (n_le_universe c Hwf) as Hnu. pose proof (wf_universe c Hwf) as Hu.
    assert (Hk : length (stored (docs c)) <= length (docs c)) by apply stored_le.
    destruct (width_ok (N.of_nat (length (docs c)))) as [W1 W2]; [lia|].
    destruct (ok_vec K HK (ceil_log2 (N.of_nat (length (docs c)) + 1)) (map lexid_word m)) as (acc & Ea & Ha); [lia| |].
    { apply Forall_map. apply Forall_forall. intros [i|] Ho; cbn [lexid_word]; [|lia].
      apply In_nth_error in Ho. destruct Ho as [dd Ho]. apply Hm in Ho. assert (i < length (stored (docs c))) by (apply nth_error_Some; congruence). lia. }
    rewrite Ea. cbn [bind]. rewrite (invert_kept m _ (length (docs c)) Hk Hm). cbn [bind].
    set (l := stored (docs c) ++ repeat 0 (length (docs c) - length (stored (docs c)))).
    assert (Hl : length l = length (docs c)) by (unfold l; rewrite app_length, repeat_length; lia).
    assert (Hpos : (exists x, In x l /\ 0 < x) <-> some_kept_doc_positive c).
    { unfold l, some_kept_doc_positive. split; intros (x & Hx & Hp); exists x; (split; [|exact Hp]).
      - apply in_app_or in Hx as [Hx|Hx]; [exact Hx|]. apply repeat_spec in Hx. lia.
      - apply in_or_app. now left. }
    destruct (ulist_exact l) as [((ul & Eu) & Hpp)|(Eu & Hpp)].
    - intros E. rewrite E in Hl. cbn in Hl. lia.
    - rewrite Hl. now apply docs_few.
    - apply Forall_forall. intros x Hx. unfold l in Hx. apply in_app_or in Hx as [Hx|Hx].
      + apply stored_In in Hx. pose proof (wf_docs_lt c Hwf) as H3. rewrite Forall_forall in H3. specialize (H3 x Hx). cbn in H3. lia.
      + apply repeat_spec in Hx. subst. reflexivity.
    - rewrite Eu. cbn [bind]. left. split; [eauto|tauto].
    - rewrite Eu. cbn [bind]. right. split; [reflexivity|tauto].
  Qed.

  Lemma ac2_exact : builds_iff (ac2_build K (files_of c)) (some_kept_doc_positive c /\ some_term_not_in_doc0 c).
  Proof.
    unfold ac2_build. destruct core_exact as [((co & E) & Hpos)|(E & Hpos)]; rewrite E; cbn [bind]; [|right; split; [reflexivity|tauto]].
    unfold files_of. cbn [f_universe f_inverted]. fold (postings c). pose proof (postings_ok c Hwf) as Hp.
    rewrite minimal_doc_ids_ok by (eapply Forall_impl; [|exact Hp]; cbn; tauto). cbn [bind].
    destruct (lists_build_ok K HK c Hwf) as (iterator & at_ & Ei & _ & _). rewrite Ei. cbn [bind].
    destruct minimals_exact as [((ul2 & Eu2) & Hm)|(Eu2 & Hm)]; rewrite Eu2; cbn [bind]; [left; split; [eauto|tauto]|right; split; [reflexivity|tauto]].
  Qed.
  Lemma ac3_exact : builds_iff (ac3_build K (files_of c)) (some_kept_doc_positive c).
  Proof.
    unfold ac3_build. destruct core_exact as [((co & E) & Hpos)|(E & Hpos)]; rewrite E; cbn [bind]; [|right; split; [reflexivity|tauto]].
    unfold files_of. cbn [f_universe f_inverted]. fold (postings c).
    destruct (lists_build_ok K HK c Hwf) as (iterator & at_ & Ei & _ & _). rewrite Ei. cbn [bind]. left. split; [eauto|tauto].
  Qed.
End Build.

Lemma ac4_exact (K : bcontainers) (HK : bcontainers_ok K) (H0 : throws_on_width0 K) c (Hwf : wf_collection c) (Hfew : few_postings c) m :
  builds_iff (ac4_build K m (files_of c)) (some_kept_doc_positive c).
Proof.
  unfold ac4_build. destruct (core_exact K (okb_base K HK) H0 c Hwf) as [((co & E) & Hpos)|(E & Hpos)]; rewrite E; cbn [bind]; [|right; split; [reflexivity|tauto]].
  cbn [f_universe f_inverted files_of]. fold (postings c).
  destruct (bi_build_ok K HK (universe c) (universe_lt c Hwf) (postings c) (postings_ne c Hwf) (postings_ok c Hwf) Hfew m) as (ii & bs & at_ & Ei & Hi).
  rewrite Ei. cbn [bind]. left. split; [eauto|tauto].
Qed.
