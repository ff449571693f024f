(** ef_autocomplete_type1 answers queries exactly. *)
From Coq Require Import Sorted Permutation.
From Verif Require Import Base S_Order P_Order S_Vocab S_Completions M_Fc P_Fc P_Kept S_Parse M_Parse P_Parse P_ParseFc.
From Verif Require Import M_Heap S_Heap M_Iter S_Iter M_TopK S_TopK P_TopK P_TopKDistinct P_Limit M_Intersect S_Intersect P_Intersect.
From Verif Require Import M_Find S_Search M_Trie S_Trie P_TrieFinal M_Containers S_Containers P_Containers.
From Verif Require Import M_Auto S_Collection S_Found P_Collection S_Index P_Pool M_Auto1 P_Query.
Local Open Scope nat_scope.

Section Auto1.
  Variable K : containers.
  Hypothesis HK : containers_ok K.
  Variable c : collection.
  Hypothesis Hwf : wf_collection c.

  Definition trie_answers (t : trie) : Prop :=
    forall prefix a b, Forall (fun x => (0 < x)%N) prefix -> (1 <= a <= b)%N ->
      exists r, trie_locate_prefix t prefix a b = Ok r /\
      match r with
      | Some (x, y) => exact_range_excl (length (comps c)) (fun i => continues prefix a b (nth i (comps c) [])) x y
      | None => forall i, i < length (comps c) -> ~ continues prefix a b (nth i (comps c) [])
      end.

  Record index1_ok (x : index1 K) (at_ : k_It K -> list nat -> nat -> Prop) : Prop := {
    i1_trie : trie_answers (a1_completions K x);
    i1_docs : ulist_holds (docs c) (a1_docs K x);
    i1_minimal : ulist_holds (map (fun p => hd 0 p) (postings c)) (a1_minimal K x);
    i1_dict : fc_build (terms c) = Ok (a1_dict K x);
    i1_cursor : cursor (k_ops K (a1_universe K x)) (universe c) at_;
    i1_opens : opens at_ (a1_inverted K x) (postings c);
    i1_universe : a1_universe K x = universe c;
    i1_forward : fwd_holds (forwards c) (a1_forward K x)
  }.

  Lemma ac1_build_ok : some_doc_positive c -> some_term_not_in_doc0 c ->
    exists x at_, ac1_build K (files_of c) = Ok x /\ index1_ok x at_.
  Proof.
    intros Hpos H0. unfold ac1_build, files_of. cbn [f_dict f_mapped f_levels f_universe f_inverted f_forward].
    destruct (trie_spec (comps c) (docs c) (wf_comps c Hwf) (wf_docs_len c Hwf)) as (ta & Et & Edocs & Hmono & Htrie).
    assert (Hfit : trie_fits ta).
    { rewrite (trie_build_eq (comps c) (wf_comps c Hwf) (docs c) (wf_docs_len c Hwf)) in Et. injection Et as <-.
      apply trie_fits_ok; [apply (wf_comps c Hwf)|]. pose proof (n_le_universe c Hwf). pose proof (wf_universe c Hwf). lia. }
    rewrite Et. cbn [bind].
    destruct (fc_extract_any (terms c) (wf_terms c Hwf)) as (d & Ed & _). rewrite Ed. cbn [bind].
    pose proof (postings_ok c Hwf) as Hp.
    fold (postings c). rewrite minimal_doc_ids_ok by (eapply Forall_impl; [|exact Hp]; cbn; tauto). cbn [bind].
    destruct (ok_lists K HK (universe c) (postings c)) as (iterator & at_ & Ei & Hcur & Hop).
    { pose proof (wf_universe c Hwf). lia. }
    { intros E. apply (f_equal (@length (list nat))) in E. rewrite postings_length in E. pose proof (terms_nonempty c Hwf). cbn in E. lia. }
    { exact Hp. } { now apply postings_few. }
    rewrite Ei. cbn [bind].
    destruct (fwd_build_ok K HK (length (terms c)) (forwards c)) as (fw & Ef & Hf).
    { apply T_bound; assumption. } { apply forwards_le; assumption. } { apply forwards_total; assumption. }
    fold (forwards c). rewrite Ef. cbn [bind]. rewrite Edocs.
    destruct (ulist_build_ok K HK (docs c)) as (ul & Eu & Hu).
    { now apply docs_few. }
    { eapply Forall_impl; [|apply (wf_docs_lt c Hwf)]. cbn. intros d' Hd'. pose proof (wf_universe c Hwf). lia. }
    { exact Hpos. }
    rewrite Eu. cbn [bind]. destruct (minimals_ok c Hwf H0) as [M1 M2].
    destruct (ulist_build_ok K HK _ (minimals_few c Hwf) M1 M2) as (ul2 & Eu2 & Hu2). rewrite Eu2. cbn [bind].
    destruct (trie_store_ok K HK ta Hmono Hfit) as (t & Es & Ht). rewrite Es. cbn [bind].
    eexists. exists at_. split; [reflexivity|]. constructor; cbn; auto.
    intros prefix a b. exact (proj1 (Htrie t Ht) prefix a b).
  Qed.

  Variable x : index1 K.
  Variable at_ : k_It K -> list nat -> nat -> Prop.
  Hypothesis Hx : index1_ok x at_.
  Variable fuel : nat.
  Hypothesis Hfuel : query_fuel c < fuel.
  (** Extracting the strings of the documents [ds]. *)
  Lemma ac1_extract_exact p ds scores : pool_ok p -> firstn (length ds) scores = ds -> length scores = MAX_K ->
    Forall (fun d => d < universe c) ds ->
    let r := ac1_extract K x (length ds) {| p_scores := scores; p_offsets := [0]; p_data := p_data p |} in
    (reportable c (answer_of c ds) -> exists p', r = Ok p' /\ pool_ok p' /\ pool_results p' = Ok (answer_of c ds)) /\
    (~ reportable c (answer_of c ds) -> r = UB).
  Proof.
    intros [P1 P2] Hs Hl Hlt r. subst r. unfold ac1_extract. cbn [p_scores].
    rewrite (reportable_writable c Hwf ds) by (rewrite <- Hs, firstn_length; lia).
    set (p0 := {| p_scores := scores; p_offsets := [0]; p_data := p_data p |}).
    destruct (write_strings_exact c Hwf (a1_dict K x) (i1_dict x at_ Hx) (fwd_terms K x scores)
                (map (forward_list c) ds) 0 p0 []) as [(W & p' & E & S & HP)|(W & E)].
    - intros j ids Hj. cbn [Nat.add]. rewrite nth_error_map in Hj. destruct (nth_error ds j) as [d|] eqn:Ed; [|discriminate].
      injection Hj as <-. unfold fwd_terms.
      assert (Hjl : j < length ds) by (apply nth_error_Some; congruence).
      assert (Hsj : nth_error scores j = Some d) by (rewrite <- Hs in Ed; now rewrite nth_error_firstn in Ed).
      rewrite (get_ok _ _ _ Hsj). cbn [bind].
      rewrite Forall_forall in Hlt. specialize (Hlt d (nth_error_In _ _ Ed)).
      destruct (i1_forward x at_ Hx d (forward_list c d) (forwards_nth c d Hlt)) as (pos & Ep & Hd).
      rewrite Ep. cbn [bind]. now apply fwd_read_ok.
    - apply Forall_map. apply Forall_forall. intros d _. apply (forward_valid c Hwf).
    - repeat split; cbn; [exact P2].
    - split; [|contradiction]. intros _. exists p'. rewrite map_length in E. split; [exact E|]. cbn [app] in HP.
      split; [split; [rewrite S; exact Hl|apply HP]|].
      rewrite (pool_results_ok p' _ ds HP); [|exact (writable_all_len c Hwf _ 0 ltac:(lia) W)|now rewrite !map_length|rewrite S; exact Hs].
      f_equal. unfold answer_of. clear. induction ds as [|d ds IH]; [reflexivity|]. cbn. now rewrite IH.
    - split; [contradiction|]. intros _. rewrite map_length in E. exact E.
  Qed.

  Lemma pool_empty p : pool_ok p -> pool_ok (pool_init p) /\ pool_results (pool_init p) = Ok [].
  Proof. intros H. split; [exact H|reflexivity]. Qed.

  (** prefix_topk. *)
  Lemma prefix_ids_pos ts prefix : positions (stored (terms c)) ts prefix -> Forall (fun x => (0 < x)%N) (map N.of_nat prefix).
  Proof.
    intros H. apply Forall_map. eapply Forall_impl; [|apply (positions_range c ts prefix H)]. cbn. lia.
  Qed.

  Lemma universe_fuel : length (comps c) + 1 < fuel.
  Proof.
    pose proof (n_le_universe c Hwf). unfold query_fuel in Hfuel. nia.
  Qed.

  (** conjunctive_topk. *)
  Lemma intersects_hit a b d : d < universe c -> fwd_intersects (a1_forward K x) d a b = Ok (hit c a b d).
  Proof.
    intros Hd. destruct (fwd_intersects_ok (forwards c) _ d (forward_list c d) a b (i1_forward x at_ Hx) (forwards_nth c d Hd)) as (r & E & Hr).
    rewrite E. f_equal. rewrite <- (hit_true c) in Hr. destruct r, (hit c a b d); intuition congruence.
  Qed.

  Lemma firstn_upd {A} (l : list A) i v : i < length l -> firstn (i + 1) (upd l i v) = firstn i l ++ [v].
  Proof. apply upd_firstn. Qed.

  Lemma conj1_ok {St} (ops : stream_ops St) k a b : forall r f it scores results,
    yields ops it r -> Forall (fun d => d < universe c) r -> results < k -> k <= length scores -> length r < f ->
    exists num scores', loop f (conj1_step K x k ops a b) (it, scores, results) = Ok (num, scores') /\
      length scores' = length scores /\
      firstn num scores' = firstn results scores ++ firstn (k - results) (filter (hit c a b) r) /\
      num = results + length (firstn (k - results) (filter (hit c a b) r)).
  Proof.
    induction r as [|d r IH]; intros f it scores results Hy Hlt Hres Hkl Hf; (destruct f as [|f]; [cbn in Hf; lia|]); cbn [yields] in Hy.
    - cbn [loop conj1_step]. rewrite Hy. cbn [negb]. exists results, scores. cbn [filter]. rewrite firstn_nil, app_nil_r. cbn. auto.
    - destruct Hy as (Hn & Hd & it' & Enext & Hy). inversion Hlt as [|? ? Hd1 Hd2]; subst. cbn [length] in Hf.
      cbn [loop conj1_step]. rewrite Hn. cbn [negb].
      rewrite intersects_hit by assumption. cbn [bind].
      set (d := s_deref ops it) in *. cbn [filter]. destruct (hit c a b d).
      + rewrite set_ok by lia. cbn [bind]. destruct (Nat.eqb_spec (results + 1) k) as [Ek|Ek].
        * exists (results + 1), (upd scores results d). replace (k - results) with 1 by lia. cbn [firstn].
          rewrite upd_length, firstn_upd by lia. cbn. auto.
        * rewrite Enext. cbn [bind].
          destruct (IH f it' (upd scores results d) (results + 1) Hy Hd2 ltac:(lia) ltac:(rewrite upd_length; lia) ltac:(lia))
            as (num & scores' & E & L & F & Hnum).
          exists num, scores'. split; [exact E|]. rewrite upd_length in L. split; [exact L|].
          rewrite firstn_upd in F by lia.
          replace (k - results) with (S (k - (results + 1))) by lia. cbn [firstn]. split.
          -- rewrite F, <- app_assoc. reflexivity.
          -- cbn [length]. lia.
      + rewrite Enext. cbn [bind]. apply IH; auto. lia.
  Qed.

  Lemma conj1_wstep {St} (ops : stream_ops St) k a b s : conj1_step K x k ops a b s =
    wstep (fun it _ => if negb (s_has_next ops it) then Ok None else
      do h <- fwd_intersects (a1_forward K x) (s_deref ops it) a b; Ok (Some (if h : bool then Some (s_deref ops it) else None, s_next ops it))) k s.
  Proof.
    destruct s as [[it sc] i]. cbn [conj1_step wstep]. destruct (negb (s_has_next ops it)); [reflexivity|].
    destruct (fwd_intersects (a1_forward K x) (s_deref ops it) a b) as [[|]| | |]; reflexivity.
  Qed.
  Lemma conj1_any {St} (ops : stream_ops St) k a b r it scores : yields ops it r -> Forall (fun d => d < universe c) r -> length r < fuel ->
    let all := filter (hit c a b) r in
    exists ds, ds = firstn (if k =? 0 then S (length all) else k) all /\ outcome (length scores) ds (conj1 K x fuel k ops a b it scores).
  Proof.
    intros Hy Hlt Hl all. unfold conj1, outcome. rewrite (loop_ext _ _ (conj1_wstep ops k a b)).
    apply (wloop_any _ (fun k ds => ds = firstn k all)).
    - intros k0 sc A B. rewrite <- (loop_ext _ _ (conj1_wstep ops k0 a b)).
      destruct (conj1_ok ops k0 a b r fuel it sc 0 Hy Hlt ltac:(lia) B Hl) as (num & sc' & E & L & F & Hnum).
      rewrite Nat.sub_0_r in F, Hnum. cbn [Nat.add firstn app] in F, Hnum. exists num, sc'. split; [exact E|]. split; [|exact F].
      rewrite Hnum, firstn_length. lia.
    - intros k0 ds ->. rewrite firstn_length. lia.
  Qed.

  Lemma conj_prefix_ok k prefix a b scores : prefix <> [] -> Forall (fun i => 1 <= i <= length (terms c)) prefix ->
    let all := filter (hit c a b) (all_of c prefix) in
    exists ds, ds = firstn (if k =? 0 then S (length all) else k) all /\
      outcome (length scores) ds (ac1_conjunctive K x fuel k prefix a b scores).
  Proof.
    intros Hne Hran. destruct (dedup_facts c prefix Hne Hran) as (Dne & Dran & Din & Dlen).
    pose proof (i1_universe x at_ Hx) as Hu. unfold ac1_conjunctive.
    assert (Eall : all_of c (deduplicate prefix) = all_of c prefix).
    { apply sorted_ext; try (apply filter_increasing, seq_increasing). intros d.
      rewrite !in_all_of by assumption. split; intros (w & Hw & H); exists w; (split; [exact Hw|]); intros t Ht; apply H; now apply Din. }
    assert (Hfin : forall St (ops : stream_ops St) it, yields ops it (all_of c prefix) ->
      let all := filter (hit c a b) (all_of c prefix) in
      exists ds, ds = firstn (if k =? 0 then S (length all) else k) all /\ outcome (length scores) ds (conj1 K x fuel k ops a b it scores)).
    { intros St ops it Hy. apply conj1_any; [exact Hy|apply all_of_lt|].
      pose proof (all_of_length c prefix). unfold query_fuel in Hfuel. nia. }
    destruct (deduplicate prefix) as [|t [|t2 ids]] eqn:Ed; [congruence| |].
    - inversion Dran as [|? ? Ht _]; subst. destruct t as [|t]; [lia|].
      destruct (single_list_ok (k_ops K (a1_universe K x)) (universe c) at_ (a1_inverted K x) (postings c) t (posting_list c (S t)))
        as (it & Eit & Hy).
      { apply (i1_cursor x at_ Hx). } { apply (i1_opens x at_ Hx). }
      { rewrite <- (postings_nth c (S t)) by lia. f_equal. lia. }
      rewrite Eit. cbn [bind]. apply Hfin. rewrite <- Eall, (all_of_single c Hwf). exact Hy.
    - rewrite <- Ed in *.
      destruct (intersection_ok (k_ops K (a1_universe K x)) (universe c) at_ (a1_inverted K x) (postings c) (k_sort K)
                  (deduplicate prefix) (map (posting_list c) (deduplicate prefix)) fuel (all_of c (deduplicate prefix))) as (it & Eit & Hy).
      { apply (i1_cursor x at_ Hx). } { apply (i1_opens x at_ Hx). } { apply (ok_sort K HK). } { exact Dne. }
      { clear -Dran. induction Dran as [|t l Ht H IH]; cbn [map]; constructor; [|exact IH]. split; [lia|]. apply postings_nth. exact Ht. }
      { unfold query_fuel in Hfuel. nia. }
      { apply all_of_common; assumption. }
      rewrite Hu in *. rewrite Eit. cbn [bind]. apply Hfin. rewrite <- Eall. exact Hy.
  Qed.

  Variable k : nat.
  (** What a query has to do in state [s]. *)
  Definition answers1 (run : state1 -> res state1) (P : list (list N) -> Prop) : Prop :=
    forall s, state1_ok s -> exists out, topk_answer c P (limit c k) out /\
      (reportable c out -> exists s', run s = Ok s' /\ pool_results (s1_pool s') = Ok out /\ state1_ok s') /\
      (~ reportable c out -> run s = UB).

  Lemma ac1_prefix_ok q ts last : query_split q ts last ->
    answers1 (ac1_prefix_topk K x fuel k q) (prefix_by c (found c last) ts).
  Proof.
    intros Hs s [Hp Hb]. unfold ac1_prefix_topk.
    destruct (query_terms_ok c Hwf (a1_dict K x) (i1_dict x at_ Hx) true q ts last (s1_bufs s) Hs Hb)
      as (o & b' & Eq & Hb' & Ho).
    rewrite Eq. cbn [bind]. destruct o as [[[prefix a] b]|].
    2:{ exists []. split.
        - apply answer_nil. intros ids Hids Hm. destruct (prefix_match_known c Hwf ts (found c last) ids Hids Hm) as [A (i & Hi & B)].
          destruct Ho as [[_ Hn]|Hn]; [contradiction|]. exact (Hn i Hi B).
        - split; [|intros H; exfalso; apply H; apply reportable2_nil].
          intros _. eexists. split; [reflexivity|]. cbn [s1_pool s1_bufs]. destruct (pool_empty _ Hp) as [P1 P2].
          split; [exact P2|]. split; assumption. }
    destruct Ho as (Hall & Hpos & Hr). specialize (Hall eq_refl).
    destruct (i1_trie x at_ Hx (map N.of_nat prefix) (N.of_nat (a + 1)) (N.of_nat (b + 1))) as (r & Er & Hran).
    { apply (prefix_ids_pos ts). exact Hpos. }
    { destruct Hr as [Hab _]. lia. }
    rewrite Er. cbn [bind].
    assert (Hm : forall ids, In ids (comps c) -> (prefix_by c (found c last) ts (words_of c ids) <->
      continues (map N.of_nat prefix) (N.of_nat (a + 1)) (N.of_nat (b + 1)) ids)).
    { intros ids Hids. apply (prefix_match_ids c Hwf ts (found c last) ids prefix a b Hids Hpos Hall Hr). }
    destruct r as [[lo hi]|].
    2:{ exists []. split.
        - apply answer_nil. intros ids Hids H. apply (Hm ids Hids) in H. apply (In_nth _ _ []) in Hids.
          destruct Hids as (i & Hi & <-). exact (Hran i Hi H).
        - split; [|intros H; exfalso; apply H; apply reportable2_nil].
          intros _. eexists. split; [reflexivity|]. cbn [s1_pool s1_bufs]. destruct (pool_empty _ Hp) as [P1 P2].
          split; [exact P2|]. split; assumption. }
    destruct Hran as [Hlh Hran]. destruct (i1_docs x at_ Hx) as (Hacc & Hsize & Hrmq).
    pose proof Hp as [Hp1 Hp2]. rewrite Hsize. pose proof (wf_docs_len c Hwf) as Hdl. pose proof universe_fuel as Hfu.
    destruct (unsorted_topk_any (ul_acc (a1_docs K x)) (docs c) (ul_rmq (a1_docs K x)) (k_heap K scored_range) Hacc Hrmq
                (ok_heap K HK scored_range) k lo hi fuel (p_scores (s1_pool s)) ltac:(lia) ltac:(lia) ltac:(lia)) as (ds & Hks & Hout).
    cbn [pool_init p_scores]. rewrite Hp1 in Hout.
    apply k_smallest_nodup in Hks; [|apply NoDup_segment; apply (wf_docs_nodup c Hwf)].
    exists (answer_of c ds).
    assert (Hans : topk_answer c (prefix_by c (found c last) ts) (limit c k) (answer_of c ds)).
    { apply (answer_of_any c Hwf _ k (segment (docs c) lo hi)); [|rewrite segment_length by lia; exact Hks].
      intros d. rewrite (segment_docs c Hwf) by lia. split.
      - intros (i & Hi & Ed). exists (nth i (comps c) []).
        assert (Hil : i < length (comps c)) by lia. split.
        + exists i. split; [exact Ed|now apply nth_error_nth'].
        + apply Hm; [now apply nth_In|]. now apply Hran.
      - intros (ids & (i & Ed & Ec) & HP). exists i. split; [|exact Ed].
        assert (Hil : i < length (comps c)) by (apply nth_error_Some; congruence).
        apply Hran; [exact Hil|]. rewrite (nth_error_nth _ _ [] Ec). apply Hm; [eapply nth_error_In; eauto|exact HP]. }
    split; [exact Hans|].
    destruct Hout as [(Hlen & scores & Et & Hls & Hf)|(Hlen & Et)]; rewrite Et; cbn [bind].
    2:{ split; [|reflexivity]. intros [Hr1 _]. unfold answer_of in Hr1. rewrite map_length in Hr1. lia. }
    destruct (ac1_extract_exact (s1_pool s) ds scores Hp Hf Hls) as (Hok & Hub).
    { apply Forall_forall. intros d Hd. destruct Hks as (_ & _ & Hin & _). apply Hin in Hd. apply (segment_docs c Hwf) in Hd; [|lia].
      destruct Hd as (i & _ & Ed). apply nth_error_In in Ed. pose proof (wf_docs_lt c Hwf) as H. rewrite Forall_forall in H. auto. }
    cbn [pool_init p_offsets p_data]. split; intros Hfit; [|now rewrite (Hub Hfit)].
    destruct (Hok Hfit) as (p' & Ep & Hp' & Hres). rewrite Ep. cbn [bind]. eexists. split; [reflexivity|].
    split; [exact Hres|]. split; [exact Hp'|exact Hb'].
  Qed.

  Lemma ac1_conj_ok q ts last : query_split q ts last ->
    answers1 (ac1_conjunctive_topk K x fuel k q) (conj_by c (found c last) ts).
  Proof.
    intros Hs s [Hp Hb]. unfold ac1_conjunctive_topk.
    destruct (query_terms_ok c Hwf (a1_dict K x) (i1_dict x at_ Hx) false q ts last (s1_bufs s) Hs Hb)
      as (o & b' & Eq & Hb' & Ho).
    rewrite Eq. cbn [bind]. destruct o as [[[prefix a] b]|].
    2:{ exists []. split.
        - apply answer_nil. intros ids Hids Hm. destruct (conj_match_suffix c Hwf ts (found c last) ids Hids Hm) as (i & Hi & B).
          destruct Ho as [[Hn _]|Hn]; [discriminate|]. exact (Hn i Hi B).
        - split; [|intros H; exfalso; apply H; apply reportable2_nil].
          intros _. eexists. split; [reflexivity|]. cbn [s1_pool s1_bufs]. destruct (pool_empty _ Hp) as [P1 P2].
          split; [exact P2|]. split; assumption. }
    destruct Ho as (_ & Hpos & Hr). pose proof Hr as [Hab _]. pose proof Hp as [Hp1 Hp2].
    assert (Hm : forall ids, In ids (comps c) -> (conj_by c (found c last) ts (words_of c ids) <->
      (forall i, In i prefix -> In (N.of_nat i) ids) /\ exists t, In t ids /\ (N.of_nat (a + 1) <= t <= N.of_nat (b + 1))%N)).
    { intros ids Hids. now apply conj_match_ids. }
    assert (Hds : exists ds all, outcome MAX_K ds
      (if length prefix =? 0
       then minimal_topk (ul_acc (a1_minimal K x)) (ul_size (a1_minimal K x)) (ul_rmq (a1_minimal K x)) (k_ops K (a1_universe K x))
              (a1_inverted K x) (k_heap K _) k fuel a (b + 1) (p_scores (pool_init (s1_pool s)))
       else ac1_conjunctive K x fuel k prefix (a + 1) (b + 1) (p_scores (pool_init (s1_pool s)))) /\
      k_smallest_distinct (if k =? 0 then S (length all) else k) all ds /\
      forall d, In d all <-> exists ids, is_doc c d ids /\ conj_by c (found c last) ts (words_of c ids)).
    { destruct (Nat.eqb_spec (length prefix) 0) as [Hz|Hnz].
      - destruct (i1_minimal x at_ Hx) as (Hacc & Hsize & Hrmq).
        destruct (minimal_topk_any (k_ops K (a1_universe K x)) (universe c) at_ (a1_inverted K x) (postings c)
                    (ul_acc (a1_minimal K x)) (ul_rmq (a1_minimal K x)) (k_heap K _) k a (b + 1) fuel (p_scores (s1_pool s)))
          as (ds & Hks & Hout).
        { apply (i1_cursor x at_ Hx). } { apply (i1_opens x at_ Hx). } { cbv zeta. split; assumption. } { apply (ok_heap K HK). }
        { lia. } { rewrite postings_length. lia. }
        { pose proof (postings_total c). unfold query_fuel in Hfuel. nia. }
        exists ds, (concat (firstn (b + 1 - a) (skipn a (postings c)))).
        cbn [pool_init p_scores]. rewrite Hsize, map_length. rewrite Hp1 in Hout. split; [exact Hout|].
        split; [exact Hks|]. intros d. rewrite (in_terms_range c Hwf a b d) by lia. split.
        + intros (ids & t & Hdoc & Ht & Htr). exists ids. split; [exact Hdoc|]. apply Hm; [eapply is_doc_in; eauto|].
          split; [|eauto]. intros i Hi. destruct prefix; [destruct Hi|discriminate].
        + intros (ids & Hdoc & HP). apply Hm in HP; [|eapply is_doc_in; eauto]. destruct HP as (_ & t & Ht & Htr). eauto.
      - assert (Hne : prefix <> []) by (intros ->; apply Hnz; reflexivity).
        destruct (conj_prefix_ok k prefix (a + 1) (b + 1) (p_scores (s1_pool s)) Hne (positions_range c ts prefix Hpos))
          as (ds & -> & Hout).
        eexists. exists (filter (hit c (a + 1) (b + 1)) (all_of c prefix)). rewrite Hp1 in Hout.
        cbn [pool_init p_scores]. split; [exact Hout|]. split.
        + apply firstn_k_smallest. apply filter_increasing, filter_increasing, seq_increasing.
        + intros d. rewrite filter_In, (in_all_of c Hwf prefix d Hne), hit_true. split.
          * intros ((ids & Hdoc & Hall) & Hh). exists ids. split; [exact Hdoc|]. apply Hm; [eapply is_doc_in; eauto|].
            rewrite (is_doc_fwd c Hwf d ids Hdoc) in Hh. auto.
          * intros (ids & Hdoc & HP). apply Hm in HP; [|eapply is_doc_in; eauto]. destruct HP as (A & B).
            rewrite (is_doc_fwd c Hwf d ids Hdoc). split; [eauto|exact B]. }
    destruct Hds as (ds & all & Hout & Hks & Hall).
    exists (answer_of c ds).
    split; [now apply (answer_of_any c Hwf _ k all)|].
    destruct Hout as [(Hlen & scores & E & L & F)|(Hlen & E)]; rewrite E; cbn [bind].
    2:{ split; [|reflexivity]. intros [Hr1 _]. unfold answer_of in Hr1. rewrite map_length in Hr1. lia. }
    destruct (ac1_extract_exact (s1_pool s) ds scores Hp F L) as (Hok & Hub).
    { apply Forall_forall. intros d Hd. destruct Hks as (_ & _ & Hin & _). apply Hin in Hd. apply Hall in Hd.
      destruct Hd as (ids & Hdoc & _). now apply (is_doc_lt c Hwf d ids). }
    cbn [pool_init p_offsets p_data]. split; intros Hfit; [|now rewrite (Hub Hfit)].
    destruct (Hok Hfit) as (p' & Ep & Hp' & Hres). rewrite Ep. cbn [bind]. eexists. split; [reflexivity|].
    split; [exact Hres|]. split; [exact Hp'|exact Hb'].
  Qed.
End Auto1.

(** The theorems. *)
Section Final.
  Variable K : containers.
  Hypothesis HK : containers_ok K.
  Variable c : collection.
  Hypothesis Hwf : wf_collection c.
  Hypothesis Hpos : some_doc_positive c.
  Hypothesis H0 : some_term_not_in_doc0 c.

  Lemma auto1_exact : exists x, ac1_build K (files_of c) = Ok x /\
    forall fuel k q ts last s, query_fuel c < fuel -> query_split q ts last -> state1_ok s ->
      (exists out, topk_answer c (prefix_by c (found c last) ts) (limit c k) out /\
        (reportable c out -> exists s', ac1_prefix_topk K x fuel k q s = Ok s' /\ pool_results (s1_pool s') = Ok out /\ state1_ok s') /\
        (~ reportable c out -> ac1_prefix_topk K x fuel k q s = UB)) /\
      (exists out, topk_answer c (conj_by c (found c last) ts) (limit c k) out /\
        (reportable c out -> exists s', ac1_conjunctive_topk K x fuel k q s = Ok s' /\ pool_results (s1_pool s') = Ok out /\ state1_ok s') /\
        (~ reportable c out -> ac1_conjunctive_topk K x fuel k q s = UB)).
  Proof.
    destruct (ac1_build_ok K HK c Hwf Hpos H0) as (x & at_ & E & Hx). exists x. split; [exact E|].
    intros fuel k q ts last s Hf Hs Hst. split.
    - exact (ac1_prefix_ok K HK c Hwf x at_ Hx fuel Hf k q ts last Hs s Hst).
    - exact (ac1_conj_ok K HK c Hwf x at_ Hx fuel Hf k q ts last Hs s Hst).
  Qed.

  Hypothesis H17 : sizes_ok c.

  Lemma auto1_spec : exists x, ac1_build K (files_of c) = Ok x /\
    forall fuel k q ts last s, query_fuel c < fuel -> 1 <= k <= MAX_K -> query_split q ts last ->
      first_term_ok c last -> state1_ok s ->
      (exists out, topk_answer c (prefix_match ts last) k out /\
        (fits_pool out -> exists s', ac1_prefix_topk K x fuel k q s = Ok s' /\ pool_results (s1_pool s') = Ok out /\ state1_ok s')) /\
      (exists out, topk_answer c (conj_match c ts last) k out /\
        (fits_pool out -> exists s', ac1_conjunctive_topk K x fuel k q s = Ok s' /\ pool_results (s1_pool s') = Ok out /\ state1_ok s')).
  Proof.
    destruct auto1_exact as (x & E & H). exists x. split; [exact E|].
    intros fuel k q ts last s Hf Hk Hs Hft Hst. destruct (H fuel k q ts last s Hf Hs Hst) as [(o1 & A1 & B1 & _) (o2 & A2 & B2 & _)].
    rewrite limit_id in A1, A2 by lia.
    assert (L1 : length o1 <= MAX_K) by (apply proj2, proj1 in A1; lia). assert (L2 : length o2 <= MAX_K) by (apply proj2, proj1 in A2; lia). split.
    - exists o1. split; [|intros Hfit; apply B1; exact (reportable_all c Hwf _ o1 H17 (proj1 (proj2 (proj2 A1))) Hfit L1)]. eapply topk_answer_ext; [|exact A1]. intros ids Hids. now apply prefix_by_found.
    - exists o2. split; [|intros Hfit; apply B2; exact (reportable_all c Hwf _ o2 H17 (proj1 (proj2 (proj2 A2))) Hfit L2)]. eapply topk_answer_ext; [|exact A2]. intros ids Hids. now apply conj_by_found.
  Qed.

  Lemma state1_new_ok : state1_ok state1_new.
  Proof. repeat split. Qed.

  Lemma auto1_session : exists x, ac1_build K (files_of c) = Ok x /\
    forall fuel rs s, query_fuel c < fuel -> state1_ok s -> Forall (request_ok c) rs ->
    exists outs s', session (ac1_request K x fuel) (fun s => pool_results (s1_pool s)) rs s = Ok (outs, s') /\
      Forall2 (answer_to c) rs outs /\ state1_ok s'.
  Proof.
    destruct auto1_spec as (x & E & H). exists x. split; [exact E|]. intros fuel rs s Hf Hs Hr. revert s Hs.
    induction Hr as [|r rs (Hk & Hft & Hfit) Hr IH]; intros s Hs.
    - exists [], s. cbn. auto.
    - destruct (query_split_exists_unique (rq_text r)) as (ts & last & Hsp & _).
      assert (Hrun : exists out s', ac1_request K x fuel r s = Ok s' /\ pool_results (s1_pool s') = Ok out /\ state1_ok s' /\ answer_to c r out).
      { destruct (H fuel (rq_k r) (rq_text r) ts last s Hf Hk Hsp (Hft ts last Hsp) Hs) as [(o1 & A1 & B1) (o2 & A2 & B2)].
        unfold ac1_request, answer_to in *. destruct (rq_conj r).
        - destruct B2 as (s' & E1 & E2 & E3); [apply Hfit; eauto|]. exists o2, s'. split; [exact E1|]. eauto 6.
        - destruct B1 as (s' & E1 & E2 & E3); [apply Hfit; eauto|]. exists o1, s'. split; [exact E1|]. eauto 6. }
      destruct Hrun as (out & s1 & E1 & E2 & E3 & E4). destruct (IH s1 E3) as (outs & s2 & F1 & F2 & F3).
      exists (out :: outs), s2. cbn [session]. rewrite E1. cbn [bind]. rewrite E2. cbn [bind]. rewrite F1. cbn [bind].
      split; [reflexivity|]. split; [now constructor|exact F3].
  Qed.
End Final.

Lemma answer_to_unique c r o1 o2 : wf_collection c -> answer_to c r o1 -> answer_to c r o2 -> o1 = o2.
Proof.
  intros Hwf (ts1 & l1 & S1 & A1) (ts2 & l2 & S2 & A2). destruct (query_split_exists_unique (rq_text r)) as (ts & l & _ & Hu).
  destruct (Hu _ _ S1) as [-> ->]. destruct (Hu _ _ S2) as [-> ->]. eapply answer_unique; eauto.
Qed.
