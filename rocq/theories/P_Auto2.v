(** ef_autocomplete_type2 answers queries exactly. *)
From Coq Require Import Sorted Permutation.
From Verif Require Import Base S_Order P_Order S_Vocab S_Completions M_Fc P_Fc M_IntFc P_IntFc P_Kept S_Parse M_Parse P_Parse P_ParseFc.
From Verif Require Import M_Heap S_Heap M_Iter S_Iter M_TopK S_TopK P_TopK P_TopKDistinct P_Limit M_Intersect S_Intersect P_Intersect.
From Verif Require Import M_Find S_Search M_Trie S_Trie M_Containers S_Containers P_Containers.
From Verif Require Import M_Auto S_Collection S_Found P_Collection S_Index P_Pool M_Auto1 P_Query M_Auto2 S_Index2 S_Build P_Core2.
Local Open Scope nat_scope.

Lemma filter_length_le' {A} (f : A -> bool) l : length (filter f l) <= length l.
Proof. induction l as [|y l IH]; cbn; [lia|]. destruct (f y); cbn; lia. Qed.

(** The documents matching a conjunctive query, in terms of ids. *)
Section ConjDocs.
  Variable c : collection.
  Hypothesis Hwf : wf_collection c.
  Variables (ts : list (list N)) (R : list N -> Prop) (prefix : list nat) (a b : nat).
  Hypothesis Hpos : positions (stored (terms c)) ts prefix.
  Hypothesis Hr : exact_range (length (terms c)) (fun i => R (nth i (terms c) [])) a b.

  Lemma conj_docs_empty d : prefix = [] ->
    In d (concat (firstn (b + 1 - a) (skipn a (postings c)))) <->
    exists ids, is_doc c d ids /\ conj_by c R ts (words_of c ids).
  Proof.
    intros Ep. pose proof Hr as [Hab _]. rewrite (in_terms_range c Hwf a b d) by lia. split.
    - intros (ids & t & Hdoc & Ht & Htr). exists ids. split; [exact Hdoc|].
      apply (conj_match_ids c Hwf ts R ids prefix a b); auto; [eapply is_doc_in; eauto|].
      split; [|eauto]. intros i Hi. subst. destruct Hi.
    - intros (ids & Hdoc & HP). apply (conj_match_ids c Hwf ts R ids prefix a b) in HP; auto; [|eapply is_doc_in; eauto].
      destruct HP as (_ & t & Ht & Htr). eauto.
  Qed.

  Lemma conj_docs_prefix d : prefix <> [] ->
    In d (filter (hit c (a + 1) (b + 1)) (all_of c prefix)) <->
    exists ids, is_doc c d ids /\ conj_by c R ts (words_of c ids).
  Proof.
    intros Hne. rewrite filter_In, (in_all_of c Hwf prefix d Hne), hit_true. split.
    - intros ((ids & Hdoc & Hall) & Hh). exists ids. split; [exact Hdoc|].
      apply (conj_match_ids c Hwf ts R ids prefix a b); auto; [eapply is_doc_in; eauto|].
      rewrite (is_doc_fwd c Hwf d ids Hdoc) in Hh. auto.
    - intros (ids & Hdoc & HP). apply (conj_match_ids c Hwf ts R ids prefix a b) in HP; auto; [|eapply is_doc_in; eauto].
      destruct HP as (A & B). rewrite (is_doc_fwd c Hwf d ids Hdoc). split; [eauto|exact B].
  Qed.
End ConjDocs.

Section Auto2.
  Variable K : containers.
  Hypothesis HK : containers_ok K.
  Variable c : collection.
  Hypothesis Hwf : wf_collection c.

  Record index2_ok (x : index2 K) (at_ : k_It K -> list nat -> nat -> Prop) : Prop := {
    i2_core : core_ok c (a2_core K x);
    i2_minimal : ulist_holds (map (fun p => hd 0 p) (postings c)) (a2_minimal K x);
    i2_cursor : cursor (k_ops K (a2_universe K x)) (universe c) at_;
    i2_opens : opens at_ (a2_inverted K x) (postings c);
    i2_universe : a2_universe K x = universe c
  }.

  Lemma lists_build_ok : exists iterator at_, k_lists K (universe c) (postings c) = Ok iterator /\
    cursor (k_ops K (universe c)) (universe c) at_ /\ opens at_ iterator (postings c).
  Proof.
    apply (ok_lists K HK (universe c) (postings c)).
    { pose proof (wf_universe c Hwf). lia. }
    { intros E. apply (f_equal (@length (list nat))) in E. rewrite postings_length in E. pose proof (terms_nonempty c Hwf). cbn in E. lia. }
    { exact (postings_ok c Hwf). } { now apply postings_few. }
  Qed.

  Lemma ac2_build_ok : some_kept_doc_positive c -> some_term_not_in_doc0 c ->
    exists x at_, ac2_build K (files_of c) = Ok x /\ index2_ok x at_.
  Proof.
    intros Hpos H0. unfold ac2_build. destruct (core_build_ok K HK c Hwf Hpos) as (co & Eco & Hco).
    rewrite Eco. cbn [bind]. unfold files_of. cbn [f_universe f_inverted]. fold (postings c).
    pose proof (postings_ok c Hwf) as Hp.
    rewrite minimal_doc_ids_ok by (eapply Forall_impl; [|exact Hp]; cbn; tauto). cbn [bind].
    destruct lists_build_ok as (iterator & at_ & Ei & Hcur & Hop). rewrite Ei. cbn [bind].
    destruct (minimals_ok c Hwf H0) as [M1 M2].
    destruct (ulist_build_ok K HK _ (minimals_few c Hwf) M1 M2) as (ul2 & Eu2 & Hu2). rewrite Eu2. cbn [bind].
    eexists. exists at_. split; [reflexivity|]. constructor; cbn; auto.
  Qed.

  Variable x : index2 K.
  Variable at_ : k_It K -> list nat -> nat -> Prop.
  Hypothesis Hx : index2_ok x at_.
  Variable fuel : nat.
  Hypothesis Hfuel : query_fuel c < fuel.
  Variable k : nat.
  (** The candidate behind 15 results. *)
  Definition over (ds r : list nat) : Prop :=
    (k = 0 \/ MAX_K < k) /\ length ds = MAX_K /\ exists d, In d r /\ Forall (fun e => e < d) ds.
  (** A candidate that the dictionary has lost, before the search stops. *)
  Definition meets_lost (ds r : list nat) : Prop :=
    exists d, In d r /\ ~ In d (stored (docs c)) /\ (k = 0 \/ length ds < k \/ exists e, In e ds /\ d <= e).
  Lemma meets_lost_cons ds r d : In d (stored (docs c)) -> (meets_lost ds (d :: r) <-> meets_lost ds r).
  Proof using Type.
    intros Hd. split; intros (e & H1 & H2 & H3); exists e; (split; [|now split]); [|now right].
    destruct H1 as [<-|H1]; [contradiction|exact H1].
  Qed.

  Lemma firstn_results (scores : list nat) ds d : firstn (length ds) scores = ds -> length ds < length scores ->
    firstn (length (ds ++ [d])) (upd scores (length ds) d) = ds ++ [d].
  Proof. intros H Hl. rewrite app_length. cbn [length]. rewrite upd_firstn by exact Hl. now rewrite H. Qed.

  (** The loop; [ds]: the documents found so far. *)
  Lemma conj2_ok {St} (ops : stream_ops St) a b : forall r f it scores comps_ sizes ds,
    yields ops it r -> Forall (has_doc c) r -> increasing (ds ++ r) -> (k = 0 \/ length ds < k) -> length ds <= MAX_K ->
    length scores = MAX_K -> bufs_len comps_ sizes ->
    firstn (length ds) scores = ds -> set_holds c ds comps_ sizes -> length r < f ->
    let ds' := ds ++ firstn (if k =? 0 then S (length r) else k - length ds) (filter (hit c a b) r) in
    let run := loop f (conj2_step K x k ops a b) (it, scores, comps_, sizes, length ds) in
    (length ds' <= MAX_K /\ ~ over ds' r /\ ~ meets_lost ds' r /\ exists scores' comps' sizes', run = Ok (length ds', scores', comps', sizes') /\
      length scores' = MAX_K /\ bufs_len comps' sizes' /\ firstn (length ds') scores' = ds' /\ set_holds c ds' comps' sizes') \/
    ((MAX_K < length ds' \/ over ds' r \/ meets_lost ds' r) /\ run = UB).
  Proof.
    induction r as [|d r IH]; intros f it scores comps_ sizes ds Hy Hd Hinc Hlt Hmax Hls Hb Hs Hh Hf; (destruct f as [|f]; [cbn in Hf; lia|]); cbn [yields] in Hy.
    - left. cbn [filter]. rewrite firstn_nil, app_nil_r. split; [exact Hmax|]. split; [intros (_ & _ & d & [] & _)|]. split; [intros (d & [] & _)|].
      cbn [loop conj2_step]. rewrite Hy. cbn [negb]. exists scores, comps_, sizes. auto.
    - assert (Hdl : Forall (fun e => e < d) ds).
      { clear -Hinc. induction ds as [|e ds IH]; constructor; cbn [app] in Hinc; inversion Hinc as [|? ? A B]; subst; [|now apply IH].
        rewrite Forall_forall in B. apply B, in_or_app. right. now left. }
      destruct (Nat.eq_dec (length ds) MAX_K) as [Efull|Efull].
      { right. destruct Hy as (Hn & Hdd & _). cbn [loop conj2_step]. rewrite Hn. cbn [negb]. destruct Hb as (B1 & _).
        assert (Eg : get comps_ (length ds) = UB).
        { unfold get. destruct (nth_error comps_ (length ds)) eqn:E; [|reflexivity].
          assert (length ds < length comps_) by (apply nth_error_Some; congruence). lia. }
        rewrite Eg. cbn [bind]. split; [|reflexivity]. destruct (filter (hit c a b) (d :: r)) as [|y l] eqn:Ef.
        - right. left. rewrite firstn_nil, app_nil_r. split; [lia|]. split; [exact Efull|]. exists d. split; [now left|exact Hdl].
        - left. rewrite app_length. destruct (Nat.eqb_spec k 0) as [E0|E0]; [cbn; lia|].
          destruct (k - length ds) as [|n] eqn:Ek; [lia|]. cbn. lia. }
      destruct Hy as (Hn & Hdd & it' & Enext & Hy). inversion Hd as [|? ? Hd1 Hd2]; subst. cbn [length] in Hf.
      cbn [loop conj2_step]. rewrite Hn. cbn [negb].
      set (d := s_deref ops it) in *.
      destruct (in_dec Nat.eq_dec d (stored (docs c))) as [Hkd|Hlost].
      2:{ right. destruct Hb as (B1 & _). destruct (nth_error comps_ (length ds)) as [bf|] eqn:Ebf; [|apply nth_error_None in Ebf; lia].
          rewrite (get_ok _ _ _ Ebf). cbn [bind]. rewrite (decode_doc_lost c Hwf (a2_core K x) (i2_core x at_ Hx) d _ bf Hd1 Hlost). cbn [bind].
          split; [|reflexivity]. right. right. exists d. split; [now left|]. split; [exact Hlost|].
          destruct (Nat.eq_dec k 0) as [E0|E0]; [now left|right]. rewrite (proj2 (Nat.eqb_neq k 0) E0).
          destruct (firstn (k - length ds) (filter (hit c a b) (d :: r))) as [|y l] eqn:El; [left; rewrite app_nil_r; lia|].
          right. exists y. split; [apply in_or_app; right; now left|].
          assert (Hy1 : In y (d :: r)). { assert (In y (y :: l)) by now left. rewrite <- El in H. apply In_firstn, filter_In in H. apply H. }
          destruct Hy1 as [<-|Hy1]; [lia|]. clear -Hinc Hy1. induction ds as [|e ds IH]; cbn [app] in Hinc; inversion Hinc as [|? ? A B]; subst; [|now apply IH].
          rewrite Forall_forall in B. specialize (B y Hy1). lia. }
      destruct (slot_ok c Hwf (a2_core K x) (i2_core x at_ Hx) d (length ds) comps_ sizes (conj Hd1 Hkd) Hb ltac:(lia))
        as (bf & bf' & E1 & E2 & E3 & E4 & E5 & B1 & B2 & F).
      rewrite E1. cbn [bind]. rewrite E2. cbn [bind]. rewrite E3. cbn [bind]. rewrite E4. cbn [bind].
      change (existsb (fun t => (N.of_nat a <=? t)%N && (t <=? N.of_nat b)%N) (forward_list c d)) with (hit c a b d).
      assert (Hinc' : increasing ((ds ++ [d]) ++ r)) by (rewrite <- app_assoc; exact Hinc).
      cbn [filter]. destruct (hit c a b d).
      + rewrite set_ok by lia. cbn [bind]. rewrite E5. cbn [bind].
        pose proof (set_holds_snoc c ds d comps_ sizes bf' Hh ltac:(lia) Hb F) as Hh'.
        pose proof (firstn_results scores ds d Hs ltac:(lia)) as Hs'.
        destruct (Nat.eqb_spec (length ds + 1) k) as [Ek|Ek].
        * left. assert (E0 : (k =? 0) = false) by (apply Nat.eqb_neq; lia). rewrite E0.
          replace (k - length ds) with 1 by lia. cbn [firstn]. rewrite app_length. cbn [length].
          split; [lia|]. split; [intros ([?|?] & _); lia|]. split.
          { intros (e & He & Hle & [?|[He2|(y & Hy1 & Hy2)]]); [lia|rewrite app_length in He2; cbn [length] in He2; lia|].
            destruct He as [<-|He]; [contradiction|]. clear -Hinc' He Hy1 Hy2.
            induction (ds ++ [d]) as [|z l IH]; [destruct Hy1|]. cbn [app] in Hinc'. inversion Hinc' as [|? ? A B]; subst.
            destruct Hy1 as [<-|Hy1]; [|now apply IH]. rewrite Forall_forall in B. specialize (B e ltac:(apply in_or_app; now right)). lia. }
          exists (upd scores (length ds) d), (upd comps_ (length ds) bf'), (upd sizes (length ds) (length (forward_list c d))).
          split; [reflexivity|]. rewrite upd_length. split; [exact Hls|]. split; [exact B2|].
          rewrite app_length in Hs'. cbn [length] in Hs'. auto.
        * rewrite Enext. cbn [bind].
          assert (Hl1 : length (ds ++ [d]) = length ds + 1) by (rewrite app_length; reflexivity).
          assert (Hov : forall e, over (ds ++ d :: e) (d :: r) <-> over (ds ++ d :: e) r).
          { intros e. split; intros (O1 & O2 & d' & O3 & O4); (split; [exact O1|]); (split; [exact O2|]); exists d'; (split; [|exact O4]).
            - destruct O3 as [<-|O3]; [|exact O3]. exfalso. rewrite Forall_forall in O4. specialize (O4 d ltac:(apply in_or_app; right; now left)). lia.
            - now right. }
          pose proof (IH f it' (upd scores (length ds) d) (upd comps_ (length ds) bf') (upd sizes (length ds) (length (forward_list c d))) (ds ++ [d])
            Hy Hd2 Hinc' ltac:(lia) ltac:(lia) ltac:(now rewrite upd_length) B2 Hs' Hh' ltac:(lia)) as HI.
          cbv zeta in HI. rewrite Hl1 in HI. rewrite <- !app_assoc in HI. cbn [app] in HI.
          assert (En : (if k =? 0 then S (length (d :: r)) else k - length ds) = S (if k =? 0 then S (length r) else k - (length ds + 1))).
          { destruct (Nat.eqb_spec k 0); [reflexivity|lia]. }
          rewrite En. cbn [firstn]. rewrite Hov, meets_lost_cons by exact Hkd. exact HI.
      + rewrite Enext. cbn [bind].
        assert (Hinc2 : increasing (ds ++ r)).
        { clear -Hinc. induction ds as [|e ds IH]; cbn [app] in *; inversion Hinc as [|? ? A B]; subst; [exact A|]. constructor; [now apply IH|].
          rewrite Forall_forall in *. intros y Hy. apply B. apply in_app_or in Hy. apply in_or_app. cbn. tauto. }
        pose proof (IH f it' scores (upd comps_ (length ds) bf') sizes ds Hy Hd2 Hinc2 Hlt Hmax Hls B1 Hs (set_holds_upd c ds comps_ sizes (length ds) bf' Hh (le_n _)) ltac:(lia)) as HI.
        cbv zeta in HI.
        assert (En : firstn (if k =? 0 then S (length (d :: r)) else k - length ds) (filter (hit c a b) r) =
                     firstn (if k =? 0 then S (length r) else k - length ds) (filter (hit c a b) r)).
        { destruct (Nat.eqb_spec k 0); [|reflexivity]. assert (length (filter (hit c a b) r) <= length r) by apply filter_length_le'.
          rewrite !firstn_all2 by (cbn; lia). reflexivity. }
        rewrite En. set (l := firstn (if k =? 0 then S (length r) else k - length ds) (filter (hit c a b) r)) in *.
        assert (Hov : over (ds ++ l) (d :: r) <-> over (ds ++ l) r).
        { split; intros (O1 & O2 & d' & O3 & O4); (split; [exact O1|]); (split; [exact O2|]); exists d'; (split; [|exact O4]); [|now right].
          destruct O3 as [<-|O3]; [|exact O3]. exfalso. destruct l as [|y l'] eqn:El; [rewrite app_nil_r in O2; lia|].
          assert (Hyr : In y r). { assert (In y l) by (rewrite El; now left). unfold l in H. apply In_firstn in H. apply filter_In in H. apply H. }
          rewrite Forall_forall in O4. specialize (O4 y ltac:(apply in_or_app; right; now left)).
          clear -Hinc Hyr O4. induction ds as [|e ds IH]; cbn [app] in Hinc; inversion Hinc as [|? ? A B]; subst; [|now apply IH].
          rewrite Forall_forall in B. specialize (B y Hyr). lia. }
        rewrite Hov, meets_lost_cons by exact Hkd. exact HI.
  Qed.

  Definition conj2_outcome (prefix : list nat) (a b : nat) (run : res (nat * list nat * list (list N) * list nat)) : Prop :=
    let all := filter (hit c a b) (all_of c prefix) in
    let ds := firstn (if k =? 0 then S (length all) else k) all in
    (length ds <= MAX_K /\ ~ over ds (all_of c prefix) /\ ~ meets_lost ds (all_of c prefix) /\
     exists scores' comps' sizes', run = Ok (length ds, scores', comps', sizes') /\
      length scores' = MAX_K /\ bufs_len comps' sizes' /\ firstn (length ds) scores' = ds /\ set_holds c ds comps' sizes') \/
    ((MAX_K < length ds \/ over ds (all_of c prefix) \/ meets_lost ds (all_of c prefix)) /\ run = UB).
  Lemma ac2_conjunctive_ok prefix a b scores comps_ sizes : prefix <> [] ->
    Forall (fun i => 1 <= i <= length (terms c)) prefix -> length scores = MAX_K -> bufs_len comps_ sizes ->
    conj2_outcome prefix a b (ac2_conjunctive K x fuel k prefix a b scores comps_ sizes).
  Proof.
    intros Hne Hran Hsc Hb. pose proof (i2_universe x at_ Hx) as Hu. unfold ac2_conjunctive.
    assert (Hfin : forall St (ops : stream_ops St) it, yields ops it (all_of c prefix) ->
      conj2_outcome prefix a b (conj2 K x fuel k ops a b it scores comps_ sizes)).
    { intros St ops it Hy. unfold conj2, conj2_outcome.
      assert (En : firstn (if k =? 0 then S (length (filter (hit c a b) (all_of c prefix))) else k) (filter (hit c a b) (all_of c prefix)) =
                   [] ++ firstn (if k =? 0 then S (length (all_of c prefix)) else k - 0) (filter (hit c a b) (all_of c prefix))).
      { cbn [app]. rewrite Nat.sub_0_r. destruct (Nat.eqb_spec k 0); [|reflexivity].
        assert (length (filter (hit c a b) (all_of c prefix)) <= length (all_of c prefix)) by apply filter_length_le'.
        rewrite !firstn_all2 by lia. reflexivity. }
      cbv zeta. rewrite En.
      apply (conj2_ok ops a b (all_of c prefix) fuel it scores comps_ sizes [] Hy); auto.
      { apply Forall_forall. intros d Hd. apply (in_all_of c Hwf prefix d Hne) in Hd. destruct Hd as (w & Hw & _). eapply is_doc_has; eauto. }
      { apply filter_increasing, seq_increasing. }
      { cbn. lia. } { cbn. unfold MAX_K. lia. } { intros [|j] d Hj; discriminate. }
      { pose proof (all_of_length c prefix). unfold query_fuel in Hfuel. nia. } }
    pose proof (conj_stream_ok K HK c Hwf (k_ops K (a2_universe K x)) at_ (a2_inverted K x) fuel prefix
      (i2_cursor x at_ Hx) (i2_opens x at_ Hx) (ok_sort K HK _) Hfuel Hne Hran) as Hst.
    destruct (deduplicate prefix) as [|t [|t2 ids]]; [destruct Hst| |].
    - destruct Hst as (t' & it & -> & Eit & Hy). rewrite Eit. cbn [bind]. now apply Hfin.
    - destruct Hst as (it & Eit & Hy). rewrite Hu in *. rewrite Eit. cbn [bind]. now apply Hfin.
  Qed.

  Lemma ac2_conj_ok q ts last : query_split q ts last ->
    forall s, state2_ok s -> exists out, topk_answer c (conj_by c (found c last) ts) (limit c k) out /\
      (reportable2 c out -> ~ overruns c ts k out -> ~ stumbles c ts last k out ->
       exists s', ac2_conjunctive_topk K x fuel k q s = Ok s' /\ pool_results (s2_pool s') = Ok out /\ state2_ok s') /\
      (~ reportable2 c out \/ overruns c ts k out \/ stumbles c ts last k out -> ac2_conjunctive_topk K x fuel k q s = UB).
  Proof.
    intros Hs s Hst. unfold ac2_conjunctive_topk.
    destruct (start_ok c Hwf (a2_core K x) (i2_core x at_ Hx) false q ts last s Hs Hst) as (o & s1 & E1 & Hst1 & Hpool & Ho).
    rewrite E1. cbn [bind]. destruct o as [[[prefix a] b]|].
    2:{ exists []. split.
        - apply answer_nil. intros ids Hids Hm. destruct (conj_match_suffix c Hwf ts (found c last) ids Hids Hm) as (i & Hi & B).
          destruct Ho as [[Hn _]|Hn]; [discriminate|]. exact (Hn i Hi B).
        - split; [|intros [H|[(_ & H & _)|(_ & (w & Hw & Hf) & _)]]; [exfalso; apply H; apply reportable2_nil|discriminate|exfalso]].
          2:{ destruct Ho as [[Hn _]|Hn]; [discriminate|]. apply (In_nth _ _ []) in Hw. destruct Hw as (i & Hi & <-). exact (Hn i Hi Hf). }
          intros _ _ _. exists s1. split; [reflexivity|]. split; [now apply (empty_results s1 s)|exact Hst1]. }
    destruct Ho as (_ & Hpos & Hr). pose proof Hr as [Hab _]. pose proof Hst1 as (Hp & Hb & Hl & Hrr & Hc & Hcl & Hsz).
    pose proof Hp as [Hp1 Hp2].
    destruct (Nat.eqb_spec (length prefix) 0) as [Hz|Hnz].
    - assert (Ep : prefix = []) by (destruct prefix; [reflexivity|discriminate]).
      destruct (i2_minimal x at_ Hx) as (Hacc & Hsize & Hrmq).
      destruct (minimal_topk_any (k_ops K (a2_universe K x)) (universe c) at_ (a2_inverted K x) (postings c)
                  (ul_acc (a2_minimal K x)) (ul_rmq (a2_minimal K x)) (k_heap K _) k a (b + 1) fuel (p_scores (s2_pool s1)))
        as (ds & Hks & Hout).
      { apply (i2_cursor x at_ Hx). } { apply (i2_opens x at_ Hx). } { cbv zeta. split; assumption. } { apply (ok_heap K HK). }
      { lia. } { rewrite postings_length. lia. }
      { pose proof (postings_total c). unfold query_fuel in Hfuel. nia. }
      cbv zeta. rewrite Hsize, map_length. rewrite Hp1 in Hout.
      pose proof (fun d => conj_docs_empty c Hwf ts (found c last) prefix a b Hpos Hr d Ep) as Hall.
      exists (answer_of c ds). split; [eapply (answer_of_any c Hwf); eauto|].
      assert (Hnk : ~ exists t, In t ts /\ known c t).
      { intros (t & Ht & Hkn). apply In_nth_error in Hkn. destruct Hkn as [i Hi].
        assert (In (i + 1) prefix) by (apply (positions_in c Hwf ts prefix Hpos); eauto). subst prefix. destruct H. }
      assert (Hno : ~ overruns c ts k (answer_of c ds)) by (intros (_ & _ & H & _); contradiction).
      assert (Hns : ~ stumbles c ts last k (answer_of c ds)) by (intros (H & _); contradiction).
      destruct Hout as [(Hlen & scores & E & L & F)|(Hlen & E)]; rewrite E; cbn [bind].
      2:{ split; [|reflexivity]. intros [[Hr1 _] _]. unfold answer_of in Hr1. rewrite map_length in Hr1. lia. }
      destruct (finish_ok c Hwf (a2_core K x) (i2_core x at_ Hx) ds scores s1 Hst1) as [Hok Hub].
      { rewrite Hpool. reflexivity. } { exact F. } { exact L. } { eapply (docs_has c Hwf); eauto. }
      split; [auto|]. intros [Hn|[Hn|Hn]]; [auto|contradiction|contradiction].
    - assert (Hne : prefix <> []) by (intros ->; apply Hnz; reflexivity).
      pose proof (ac2_conjunctive_ok prefix (a + 1) (b + 1) (p_scores (s2_pool s1)) (s2_comps s1) (s2_sizes s1) Hne
                  (positions_range c ts prefix Hpos) Hp1) as Hout. unfold conj2_outcome in Hout.
      set (all := filter (hit c (a + 1) (b + 1)) (all_of c prefix)) in *. cbv zeta in Hout. set (ds := firstn (if k =? 0 then S (length all) else k) all) in *.
      assert (Hall : forall d, In d all <-> exists ids, is_doc c d ids /\ conj_by c (found c last) ts (words_of c ids)).
      { intros d. now apply conj_docs_prefix. }
      assert (Hks : k_smallest_distinct (if k =? 0 then S (length all) else k) all ds) by (apply firstn_k_smallest; apply filter_increasing, filter_increasing, seq_increasing).
      exists (answer_of c ds). split; [eapply (answer_of_any c Hwf); eauto|].
      assert (Hkn : exists t, In t ts /\ known c t).
      { destruct prefix as [|i prefix']; [congruence|]. pose proof (positions_range c ts _ Hpos) as Hpr. inversion Hpr as [|? ? Hi _]; subst.
        destruct (proj2 (positions_in c Hwf ts _ Hpos (i - 1))) as (t & Ht & Hnt); [replace (i - 1 + 1) with i by lia; now left|].
        exists t. split; [exact Ht|]. eapply nth_error_In; eauto. }
      assert (Hst' : stumbles c ts last k (answer_of c ds) <-> meets_lost ds (all_of c prefix)).
      { assert (Hle : forall d, (exists r, In r (answer_of c ds) /\ d <= fst r) <-> (exists e, In e ds /\ d <= e)).
        { intros d. unfold answer_of. split.
          - intros (r & Hin & Hd). apply in_map_iff in Hin. destruct Hin as (e & <- & He). exists e. auto.
          - intros (e & He & Hd). exists (e, text c (forward_list c e)). split; [|exact Hd]. apply in_map_iff. exists e. auto. }
        assert (Hlen : length (answer_of c ds) = length ds) by apply map_length.
        unfold stumbles, meets_lost. split.
        - intros (_ & _ & d & ids & O3 & O4 & O5 & O6). exists d. split; [|split; [exact O5|rewrite Hle, Hlen in O6; exact O6]].
          apply (in_all_of c Hwf prefix d Hne). exists ids. split; [exact O3|]. now apply (conj_known_ids c Hwf ts prefix Hpos ids (is_doc_in c d ids O3)).
        - intros (d & O3 & O5 & O6). split; [exact Hkn|]. split.
          + exists (nth a (terms c) []). pose proof Hr as [Ha Hex]. split; [apply nth_In; lia|]. apply Hex; lia.
          + apply (in_all_of c Hwf prefix d Hne) in O3. destruct O3 as (ids & O3 & O4). exists d, ids. split; [exact O3|].
            split; [now apply (conj_known_ids c Hwf ts prefix Hpos ids (is_doc_in c d ids O3))|]. split; [exact O5|]. rewrite Hle, Hlen. exact O6. }
      assert (Hov : overruns c ts k (answer_of c ds) <-> over ds (all_of c prefix)).
      { unfold overruns, over, answer_of. rewrite map_length.
        assert (Hfa : forall d, Forall (fun r => fst r < d) (map (fun d0 => (d0, text c (forward_list c d0))) ds) <-> Forall (fun e => e < d) ds)
          by (intros d; rewrite Forall_map; reflexivity).
        clear Hout. split.
        - intros (O1 & O2 & _ & d & ids & O3 & O4 & O5). split; [exact O1|]. split; [exact O2|]. exists d. split; [|now apply Hfa].
          apply (in_all_of c Hwf prefix d Hne). exists ids. split; [exact O3|]. now apply (conj_known_ids c Hwf ts prefix Hpos ids (is_doc_in c d ids O3)).
        - intros (O1 & O2 & d & O3 & O5). split; [exact O1|]. split; [exact O2|]. split; [exact Hkn|].
          apply (in_all_of c Hwf prefix d Hne) in O3. destruct O3 as (ids & O3 & O4). exists d, ids. split; [exact O3|]. split; [|now apply Hfa].
            now apply (conj_known_ids c Hwf ts prefix Hpos ids (is_doc_in c d ids O3)). }
      destruct Hout as [(Hlen & Hno & Hnl & scores & comps' & sizes' & E & A1 & A2 & A3 & A4)|(Hbad & E)]; [repeat split; assumption| |]; rewrite E; cbn [bind].
      2:{ split; [|reflexivity]. intros [[Hr1 _] _] Ho Hs'. unfold answer_of in Hr1. rewrite map_length in Hr1. destruct Hbad as [Hbad|[Hbad|Hbad]]; [lia| |].
          - exfalso. now apply Ho, Hov.
          - exfalso. now apply Hs', Hst'. }
      assert (Hre : retained c (answer_of c ds)).
      { intros d t Hin. destruct (in_dec Nat.eq_dec d (stored (docs c))) as [Hs'|Hs']; [exact Hs'|exfalso]. apply Hnl.
        apply in_map_iff in Hin. destruct Hin as (d' & Ed & Hin). injection Ed as -> _. exists d. split; [|split; [exact Hs'|right; right; exists d; auto]].
        unfold ds, all in Hin. apply In_firstn, filter_In in Hin. apply Hin. }
      destruct (extract_strings_exact c Hwf (a2_core K x) (i2_core x at_ Hx) ds comps' sizes' (s2_pool s1) scores A2 A4 Hp A3 A1) as (Hok & Hub).
      { eapply (docs_has c Hwf); eauto. }
      rewrite Hpool in *. cbn [pool_init p_offsets p_data] in *. split; [intros [Hfit _] _ _|intros [Hfit|[Hfit|Hfit]]; [|exfalso; now apply Hno, Hov|exfalso; now apply Hnl, Hst']].
      2:{ rewrite Hub; [reflexivity|]. intros H. apply Hfit. now split. }
      destruct (Hok Hfit) as (p' & Epp & Hp' & Hres). rewrite Epp. cbn [bind]. eexists. split; [reflexivity|]. cbn [s2_pool].
      split; [exact Hres|]. destruct A2 as (B1 & B2 & B3). repeat split; cbn; auto; apply Hp' || apply Hb.
  Qed.
End Auto2.
