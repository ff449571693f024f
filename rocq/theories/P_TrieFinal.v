(** The completion trie: the finished arrays and the theorem-level statements. *)
From Coq Require Import Sorted.
From Verif Require Import Base S_Order P_Order M_Find S_Search P_Find S_Completions M_Trie S_Trie P_TrieBuild P_Trie P_TrieSearch.
Local Open Scope nat_scope.

(** The builder produces exactly these arrays, and they are monotone. *)
Section Final.
  Variable cs : list (list N).
  Hypothesis Hwf : wf_completions cs.
  Variable docs : list nat.
  Hypothesis Hdocs : length docs = length cs.
  Let n := length cs.
  Let L := num_levels cs.

  Definition the_arrays : trie_arrays := {|
    ta_nodes := tab (vals cs) L;
    ta_ptrs := tab (final_ptrs cs) (L - 1);
    ta_left := tab (fun i => sub_index 0 (starts cs i)) L;
    ta_sizes := tab (fun i => sums_of (starts cs i) (map pred (closes cs i)) 0) L;
    ta_docs := docs |}.

  Lemma vals_0 : vals cs 0 = nodes_of cs 0.
  Proof.
    unfold vals. cbn [groups gsums concat]. rewrite app_nil_r. rewrite <- (map_id (nodes_of cs 0)) at 2.
    apply map_ext. intros. lia.
  Qed.

  Lemma trie_build_eq : trie_build L (records docs cs) = Ok the_arrays.
  Proof.
    pose proof (L_pos cs Hwf) as HL. fold L in HL.
    destruct (final_ok cs Hwf docs Hdocs) as (st & E & E1 & E2 & E3 & E4 & E5). fold L in E, E1, E2, E3, E4.
    unfold trie_build. destruct (Nat.eqb_spec L 0); [lia|]. rewrite E. cbn [bind]. rewrite E3. cbn [bind].
    rewrite E4. cbn [bind]. rewrite E2, combine_tab.
    rewrite (map_res_tab _ _ (fun i => sums_of (starts cs i) (map pred (closes cs i)) 0)).
    2:{ intros i Hi. cbn [fst snd]. apply size_sums_ok. rewrite map_length. symmetry. now apply closes_starts_len. }
    cbn [bind]. rewrite E1. rewrite (tab_get _ L 0) by lia. cbn [bind].
    rewrite tab_tail, combine_tab.
    rewrite (map_res_tab _ _ (fun i => vals cs (i + 1))).
    2:{ intros i Hi. cbn [fst snd]. change (map (key cs (i + 1)) (starts cs (i + 1))) with (nodes_of cs (i + 1)).
        rewrite Nat.add_1_r. destruct (groups_concat cs (S i)) as [A [B C]]. rewrite <- A, <- B. now apply level_vals. }
    cbn [bind]. f_equal. unfold the_arrays. f_equal.
    - change (map (key cs 0) (starts cs 0)) with (nodes_of cs 0). rewrite <- vals_0.
      unfold tab. destruct L as [|L']; [lia|]. cbn [seq map]. f_equal. replace (S L' - 1) with L' by lia.
      rewrite <- seq_shift, map_map. apply map_ext. intros. f_equal. lia.
    - unfold tab. now rewrite map_map.
    - exact E5.
  Qed.

  Lemma level_nonempty i : i < L -> starts cs i <> [].
  Proof.
    intros Hi.
    (* the completion that reaches this level *)
    assert (Hex : exists j, j < n /\ opn cs i j = true).
    { unfold L, num_levels in Hi. unfold n. clear -Hi. unfold opn, tc.
      assert (G : forall l, i < fold_right Nat.max 0 (map (fun c : list N => length c + 1) l) ->
        exists j, j < length l /\ (i <? length (terminated (nth j l []))) = true).
      { induction l as [|c l IH]; cbn [map fold_right]; intros H; [lia|].
        destruct (Nat.lt_ge_cases i (length c + 1)) as [A|A].
        - exists 0. split; [cbn; lia|]. unfold terminated. cbn. apply Nat.ltb_lt. rewrite app_length. cbn. lia.
        - destruct IH as (j & Hj & E); [lia|]. exists (S j). split; [cbn; lia|exact E]. }
      now apply G. }
    destruct Hex as (j & Hj & Ho).
    assert (G : forall j, j < n -> opn cs i j = true -> exists s, s < n /\ newn cs i s = true).
    { induction j0 as [|j0 IH]; intros Hj0 Ho0.
      - exists 0. split; [lia|]. unfold newn. now rewrite Ho0.
      - destruct (brk cs i (S j0)) eqn:E.
        + exists (S j0). split; [lia|]. unfold newn. now rewrite E, Ho0.
        + apply IH; [lia|]. destruct (brk_false_opn cs Hwf _ _ E) as [A _]. rewrite Nat.sub_succ, Nat.sub_0_r in A. exact A. }
    destruct (G j Hj Ho) as (s & Hs & Hn). pose proof (node_start cs i s Hs Hn) as H.
    intros E. rewrite E in H. destruct (cnt (newn cs i) s); discriminate.
  Qed.

  Lemma sorted_of_nat l : StronglySorted le l -> StronglySorted N.le (map N.of_nat l).
  Proof.
    induction 1 as [|x l H IH Hx]; [constructor|]. cbn. constructor; [exact IH|].
    apply Forall_map. eapply Forall_impl; [|exact Hx]. cbn. lia.
  Qed.

  Lemma nondec_sorted l : forall b, nondec b l -> StronglySorted le l /\ Forall (fun x => b <= x) l.
  Proof.
    induction l as [|x l IH]; intros b H; [split; constructor|]. destruct H as [H1 H2].
    destruct (IH x H2) as [A B]. split; (constructor; [|]); auto.
    eapply Forall_impl; [|exact B]. cbn. lia.
  Qed.

  Lemma sorted_nth (l : list N) : (forall i j, i < j -> j < length l -> (nth i l 0 <= nth j l 0)%N) -> sortedN l.
  Proof.
    induction l as [|x l IH]; intros H; [constructor|]. constructor.
    - apply IH. intros i j Hij Hj. apply (H (S i) (S j)); [lia|cbn; lia].
    - apply Forall_forall. intros y Hy. destruct (In_nth l y 0%N Hy) as (j & Hj & <-).
      apply (H 0 (S j)); [lia|cbn; lia].
  Qed.

  Lemma group_nth gs : forall k g, nth_error gs k = Some g ->
    group_begin gs (S k) = group_begin gs k + length g /\
    forall i, i < length g -> nth i g 0%N = nth (group_begin gs k + i) (concat gs) 0%N.
  Proof.
    induction gs as [|h gs IH]; intros k g H; [destruct k; discriminate|].
    destruct k as [|k]; cbn in H.
    - injection H as ->. unfold group_begin. cbn. rewrite app_nil_r. split; [reflexivity|].
      intros i Hi. now rewrite app_nth1.
    - rewrite !group_begin_cons. destruct (IH k g H) as [A B]. split; [lia|]. intros i Hi. cbn [concat].
      rewrite app_nth2 by lia. rewrite B by assumption. f_equal. lia.
  Qed.

  Lemma groups_sorted i : Forall sortedN (groups cs i).
  Proof.
    apply Forall_forall. intros g Hg. apply In_nth_error in Hg. destruct Hg as [k Hk].
    destruct (group_nth _ _ _ Hk) as [Hb Hn].
    assert (Hinc : increasing_on (concat (groups cs i)) (group_begin (groups cs i) k) (group_begin (groups cs i) (S k))).
    { destruct i as [|i].
      - destruct k as [|k]; [|destruct k; discriminate].
        destruct (area_root cs Hwf) as [HA _]. pose proof (area_increasing cs Hwf 0 0 _ HA) as H.
        destruct (groups_concat cs 0) as [-> _].
        assert (E : group_begin (groups cs 0) 1 = cnt (newn cs 0) (length cs)).
        { unfold group_begin. cbn [groups firstn concat]. rewrite app_nil_r. apply nodes_len. }
        rewrite E. exact H.
      - destruct (groups_concat cs (S i)) as [Ec [Ep _]].
        assert (Hk2 : k < length (groups cs (S i))) by (apply nth_error_Some; congruence).
        pose proof (group_pointers_nth (groups cs (S i)) k ltac:(lia)) as P1.
        pose proof (group_pointers_nth (groups cs (S i)) (S k) ltac:(lia)) as P2. rewrite Ep in P1, P2.
        destruct (Nat.lt_ge_cases k (length (starts cs i))) as [Lk|Lk].
        + destruct (starts_get cs i k Lk) as (s & Es & _).
          pose proof (sel_nth_inv _ _ _ _ Es) as (Hs & Hnew & Hc).
          destruct (node_end_ex cs i s Hs) as [h He]. pose proof He as (Hh & Hbh & _).
          destruct (node_ptrs cs Hwf i s h Hs Hnew He) as [Q1 Q2]. rewrite Hc in Q1, Q2.
          assert (G1 : group_begin (groups cs (S i)) k = cnt (newn cs (i + 1)) s) by congruence.
          assert (G2 : group_begin (groups cs (S i)) (S k) = cnt (newn cs (i + 1)) h) by congruence.
          rewrite G1, G2, Ec.
          rewrite Nat.add_1_r.
          apply area_increasing; [exact Hwf|]. split; [exact Hh|]. unfold newn in Hnew. apply andb_true_iff in Hnew.
          split; [apply brk_mono with i; [lia|tauto]|]. split; [apply brk_mono with i; [lia|tauto]|].
          split; [unfold newn; now apply andb_true_iff|exact He].
        + (* the pointer added at the end *)
          destruct (final_ptrs_extra cs Hwf i) as (extra & Ee & Hf). rewrite Ee in P1, P2.
          assert (Hla : length (all_ptrs cs i) = S (length (starts cs i))).
          { unfold all_ptrs. cbn [length]. now rewrite map_length, closes_starts_len. }
          rewrite nth_error_app2 in P2 by lia. apply nth_error_In in P2.
          rewrite Forall_forall in Hf. pose proof (Hf _ P2) as Hb0.
          assert (Hfull : length (concat (groups cs (S i))) = cnt (newn cs (i + 1)) (length cs)).
          { rewrite Ec, nodes_len. now rewrite Nat.add_1_r. }
          assert (Hb1 : group_begin (groups cs (S i)) k = cnt (newn cs (i + 1)) (length cs)).
          { destruct (Nat.eq_dec k (length (starts cs i))) as [->|Hne].
            - rewrite nth_error_app1 in P1 by lia.
              (* last of all_ptrs *)
              pose proof (ptr_at_break cs Hwf i (length cs) (le_n _) (brk_n cs i)) as Hl.
              fold (closes cs i) in Hl. change (last (all_ptrs cs i) 0 = cnt (newn cs (i + 1)) (length cs)) in Hl.
              unfold all_ptrs in Hl, P1. rewrite last_nth_error, map_length, closes_starts_len in Hl by assumption.
              rewrite (nth_error_nth _ _ 0 P1) in Hl. exact Hl.
            - rewrite nth_error_app2 in P1 by lia. apply nth_error_In in P1. now apply Hf. }
          intros a b Ha Hab Hbb. lia. }
    apply sorted_nth. intros a b Hab Hb2.
    rewrite !Hn by lia. apply N.lt_le_incl. apply Hinc; lia.
  Qed.

  Lemma trie_monotone_ok : trie_monotone the_arrays.
  Proof.
    unfold trie_monotone, the_arrays. cbn [ta_nodes ta_ptrs ta_left ta_sizes]. split.
    - apply Forall_forall. intros v Hv. unfold tab in Hv. apply in_map_iff in Hv. destruct Hv as (i & <- & Hi).
      apply in_seq in Hi. split.
      + unfold vals. intros E. apply (f_equal (@length N)) in E. rewrite concat_gsums_length in E.
        destruct (groups_concat cs i) as [A _]. rewrite A in E. pose proof (level_nonempty i ltac:(lia)) as Hne.
        unfold nodes_of in E. rewrite map_length in E. destruct (starts cs i); [congruence|discriminate].
      + exact (proj1 (gsums_sorted (groups cs i) 0 (groups_sorted i))).
    - apply Forall_app. split; [|apply Forall_app; split]; apply Forall_forall; intros v Hv;
        unfold tab in Hv; apply in_map_iff in Hv; destruct Hv as (i & <- & Hi); apply in_seq in Hi.
      + destruct (final_ptrs_nondec cs i) as (ps & E & Hne & Hnd & _). rewrite E. split; [discriminate|].
        apply sorted_of_nat. destruct (nondec_sorted ps 0 Hnd) as [A B]. constructor; assumption.
      + split.
        * pose proof (level_nonempty i ltac:(lia)) as Hne. destruct (starts cs i); [congruence|discriminate].
        * apply sorted_of_nat. apply sub_index_sorted. apply (proj1 (sel_sorted _ _)).
      + split.
        * pose proof (level_nonempty i ltac:(lia)) as Hne. pose proof (closes_starts_len cs Hwf i) as Hl.
          intros E. apply (f_equal (@length N)) in E. rewrite map_length, sums_of_length, map_length, Hl in E by now rewrite map_length.
          destruct (starts cs i); [congruence|discriminate].
        * apply sorted_of_nat. apply (proj1 (sums_of_sorted _ _ _)).
  Qed.
End Final.

Lemma Forall2_nth {A B} (P : A -> B -> Prop) l1 l2 i a : Forall2 P l1 l2 -> nth_error l1 i = Some a ->
  exists b, nth_error l2 i = Some b /\ P a b.
Proof.
  intros H. revert i. induction H as [|x y l1 l2 Hxy H IH]; intros i E; [destruct i; discriminate|].
  destruct i as [|i]; cbn in *; [injection E as ->; eauto|]. now apply IH.
Qed.

(** Theorem-level statements. *)
Lemma trie_spec cs docs : wf_completions cs -> length docs = length cs ->
  exists ta, trie_build (num_levels cs) (records docs cs) = Ok ta /\ ta_docs ta = docs /\ trie_monotone ta /\
  forall t, trie_holds ta t ->
    (forall prefix a b, Forall (fun x => (0 < x)%N) prefix -> (1 <= a <= b)%N ->
       exists r, trie_locate_prefix t prefix a b = Ok r /\
       match r with
       | Some (x, y) => exact_range_excl (length cs) (fun i => continues prefix a b (nth i cs [])) x y
       | None => forall i, i < length cs -> ~ continues prefix a b (nth i cs [])
       end) /\
    (forall c, Forall (fun x => (0 < x)%N) c ->
       exists r, trie_is_member t (terminated c) = Ok r /\ (r = true <-> In c cs)).
Proof.
  intros Hwf Hd. exists (the_arrays cs docs). split; [now apply trie_build_eq|]. split; [reflexivity|].
  split; [now apply trie_monotone_ok|].
  intros t (H1 & H2 & H3 & H4). cbn in H1, H2, H3, H4.
  set (L := num_levels cs) in *.
  assert (N1 : forall i, i < L -> exists nd, nth_error (tr_nodes t) i = Some nd /\ holds (vals cs i) nd).
  { intros i Hi. eapply Forall2_nth; [exact H1|]. now apply tab_nth. }
  assert (N0 : length (tr_nodes t) = L) by (rewrite <- (Forall2_len _ _ _ H1); apply tab_length).
  assert (N2 : forall i, i < L - 1 -> exists q, nth_error (tr_ptrs t) i = Some q /\ holds_nat (final_ptrs cs i) q).
  { intros i Hi. eapply Forall2_nth; [exact H2|]. now apply tab_nth. }
  assert (N3 : forall i, i < L -> exists q, nth_error (tr_left t) i = Some q /\ holds_nat (sub_index 0 (starts cs i)) q).
  { intros i Hi. eapply Forall2_nth; [exact H3|]. now rewrite tab_nth. }
  assert (N4 : forall i, i < L -> exists q, nth_error (tr_sizes t) i = Some q /\
    holds_nat (sums_of (starts cs i) (map pred (closes cs i)) 0) q).
  { intros i Hi. eapply Forall2_nth; [exact H4|]. now rewrite tab_nth. }
  split.
  - intros prefix a b Hp Hab.
    destruct (locate_ok cs Hwf t N1 N0 N2 N3 N4 prefix a b Hp ltac:(lia)) as (r & E & Hr).
    exists r. split; [exact E|].
    assert (Hc : forall i, i < length cs -> (continues prefix a b (tc cs i) <-> continues prefix a b (nth i cs []))).
    { intros i Hi. unfold tc, terminated. split; intros (x & rest & Ex & Hx).
      - assert (Hrest : exists rest', rest = rest' ++ [0%N]).
        { destruct rest as [|y rest] using rev_ind.
          - change (prefix ++ [x]) with (prefix ++ [x]) in Ex. apply app_inj_tail in Ex. lia.
          - exists rest. rewrite app_comm_cons, app_assoc in Ex. apply app_inj_tail in Ex. destruct Ex as [_ <-]. reflexivity. }
        destruct Hrest as [rest' ->]. exists x, rest'. split; [|exact Hx].
        rewrite app_comm_cons, app_assoc in Ex. now apply app_inj_tail in Ex.
      - exists x, (rest ++ [0%N]). rewrite Ex. split; [now rewrite <- app_assoc|exact Hx]. }
    destruct r as [[x y]|].
    + destruct Hr as [A B]. split; [exact A|]. intros i Hi. rewrite (B i Hi). now apply Hc.
    + intros i Hi H. apply (Hr i Hi). now apply Hc.
  - intros c Hc. apply (is_member_ok cs Hwf t N1 N0 N2 N3 N4); assumption.
Qed.
