(** The numbers in the tries, blocked indexes and whole indexes of well-formed collections fit their C++ types. *)
From Coq Require Import ZArith Lia Sorted.
From Verif Require Import Base P_Kept S_Vocab P_Core2 P_Find M_Fc M_IntFc M_Iter S_Iter M_Trie S_Trie M_Containers P_Containers M_Auto M_Auto1 M_Auto2 M_Blocked S_Blocked S_Order S_Vocab S_Completions S_Collection P_Collection P_Query P_Core2 P_Auto4 P_Blocked P_BlockIndex P_TrieBuild P_Trie P_TrieFinal S_Build P_Build.
From Verif Require Import M_Word S_Bits P_Word M_Bits P_Bits M_Cvec P_Cvec M_EfSeq P_EfSeq M_CompactEf P_CompactEf M_InvIndex P_Records P_InvIndex P_Real M_Stored P_Save P_Fit P_Fit2 S_Save.
Local Open Scope nat_scope.

(** ** The trie *)
Lemma map_res_inv {A B} (f : A -> res B) (P : B -> Prop) : forall l ys, map_res f l = Ok ys -> (forall x y, In x l -> f x = Ok y -> P y) -> length ys = length l /\ Forall P ys.
Proof.
  induction l as [|x l IH]; intros ys E H; cbn [map_res] in E; [injection E as <-; split; [reflexivity|constructor]|].
  destruct (f x) as [y| | |] eqn:Ex; try discriminate E. cbn [bind] in E. destruct (map_res f l) as [ys'| | |] eqn:El; try discriminate E. injection E as <-.
  destruct (IH ys' eq_refl) as [A1 A2]; [intros x0 y0 Hx0 Hy0; apply (H x0); [now right|assumption]|]. split; [cbn; lia|]. constructor; [|assumption]. eapply H; [now left|exact Ex].
Qed.
Lemma num_levels_le cs : Forall (fun c => length c <= 63) cs -> num_levels cs <= 64.
Proof. unfold num_levels. induction 1 as [|x cs Hx H IH]; cbn [map fold_right]; lia. Qed.
Section Trie.
  Variable cs : list (list N).
  Variable docs : list nat.
  Hypothesis Hwf : wf_completions cs.
  Hypothesis Hdocs : length docs = length cs.
  Hypothesis Hn : (N.of_nat (length cs) < 1073741823)%N.

  Lemma arrays_few : Forall (fun l => few (length l)) (ta_nodes (the_arrays cs docs)) /\
    Forall (fun l => few (length l)) (ta_ptrs (the_arrays cs docs) ++ ta_left (the_arrays cs docs) ++ ta_sizes (the_arrays cs docs)).
  Proof.
    assert (Hs : forall i, length (starts cs i) <= length cs) by (intros i; apply P_TrieBuild.cnt_le).
    assert (Hfew : forall A (l : list A), length l <= length cs + 1 -> few (length l)) by (intros A l Hl; unfold few; lia).
    unfold the_arrays. cbn [ta_nodes ta_ptrs ta_left ta_sizes]. split.
    - apply Forall_forall. intros v Hv. unfold tab in Hv. apply in_map_iff in Hv. destruct Hv as (i & <- & _). apply Hfew.
      unfold vals. rewrite concat_gsums_length. destruct (groups_concat cs i) as [-> _]. unfold nodes_of. rewrite map_length. specialize (Hs i). lia.
    - repeat (apply Forall_app; split); apply Forall_forall; intros v Hv; unfold tab in Hv; apply in_map_iff in Hv; destruct Hv as (i & <- & _).
      + unfold final_ptrs, ptrs_of. unfold few. rewrite app_length. cbn [length]. rewrite map_length.
        change (length (P_TrieBuild.sel (clo cs i) (length cs))) with (P_TrieBuild.cnt (clo cs i) (length cs)). pose proof (P_TrieBuild.cnt_le (clo cs i) (length cs)). lia.
      + apply Hfew. rewrite sub_index_length. specialize (Hs i). lia.
      + apply Hfew. pose proof (closes_starts_len cs Hwf i) as Hl. rewrite sums_of_length by (now rewrite map_length). rewrite map_length, Hl. specialize (Hs i). lia.
  Qed.
  Lemma trie_fit ta d : trie_build (num_levels cs) (S_Trie.records docs cs) = Ok ta -> trie_store_d (length cs) ta = Ok d -> fit_trie d.
  Proof.
    intros Et E. rewrite (trie_build_eq cs Hwf docs Hdocs) in Et. injection Et as <-.
    destruct (trie_monotone_ok cs Hwf docs Hdocs) as [M1 M2]. destruct (trie_fits_ok cs Hwf docs ltac:(lia)) as [F1 F2]. destruct arrays_few as [A1 A2].
    assert (HL : num_levels cs <= 64). { apply num_levels_le. destruct Hwf as (_ & _ & H). eapply Forall_impl; [|exact H]. intros x [_ Hx]. lia. }
    assert (Hlen : forall A (F : nat -> A) k, k <= num_levels cs -> length (tab F k) <= 64) by (intros; rewrite tab_length; lia).
    rewrite !Forall_app in M2, F2, A2. unfold trie_store_d in E.
    assert (Hone : forall l vs, In l vs -> Forall (fun l => monotone (map N.of_nat l)) vs -> Forall (fun l => fits64 (map N.of_nat l)) vs -> Forall (fun l => few (length l)) vs ->
      forall e, ef_build_nat l = Ok e -> fit_efs e).
    { intros l vs Hl H1 H2 H3 e He. rewrite Forall_forall in H1, H2, H3. apply (ef_fit (map N.of_nat l)); [now apply H1|now apply H2|rewrite map_length; now apply H3|exact He]. }
    destruct (map_res ef_build (ta_nodes _)) as [e1| | |] eqn:E1; try discriminate E. cbn [bind] in E.
    apply (map_res_inv _ fit_efs) in E1 as [L1 P1].
    2:{ intros l e Hl He. rewrite Forall_forall in M1, F1, A1. apply (ef_fit l); [now apply M1|now apply F1|now apply A1|exact He]. }
    destruct (map_res ef_build_nat (ta_ptrs _)) as [e2| | |] eqn:E2; try discriminate E. cbn [bind] in E.
    apply (map_res_inv _ fit_efs) in E2 as [L2 P2]; [|intros l e Hl; now apply (Hone l _ Hl)].
    destruct (map_res ef_build_nat (ta_left _)) as [e3| | |] eqn:E3; try discriminate E. cbn [bind] in E.
    apply (map_res_inv _ fit_efs) in E3 as [L3 P3]; [|intros l e Hl; now apply (Hone l _ Hl)].
    destruct (map_res ef_build_nat (ta_sizes _)) as [e4| | |] eqn:E4; try discriminate E. cbn [bind] in E.
    apply (map_res_inv _ fit_efs) in E4 as [L4 P4]; [|intros l e Hl; now apply (Hone l _ Hl)].
    injection E as <-. cbn [the_arrays ta_nodes ta_ptrs ta_left ta_sizes] in L1, L2, L3, L4.
    constructor; cbn [td_size td_nodes td_ptrs td_left td_sizes]; [unfold in32; lia|..]; (split; [|assumption]); unfold long.
    - rewrite L1. pose proof (Hlen _ (vals cs) (num_levels cs) ltac:(lia)). unfold W64. lia.
    - rewrite L2. pose proof (Hlen _ (final_ptrs cs) (num_levels cs - 1) ltac:(lia)). unfold W64. lia.
    - rewrite L3, tab_length. unfold W64. lia.
    - rewrite L4, tab_length. unfold W64. lia.
  Qed.
End Trie.

(** ** The blocked index *)
Lemma split_length m : forall ls t low cnt un terms bs, split_blocks m ls t low cnt un terms = Ok bs -> length bs <= length ls /\ Forall (fun b => blk_bound b < t + length ls) bs.
Proof.
  induction ls as [|l ls IH]; intros t low cnt un terms bs E; cbn [split_blocks] in E; [injection E as <-; split; [cbn; lia|constructor]|].
  destruct (add_docs _ _ _) as [terms1| | |]; try discriminate E. cbn [bind] in E. cbn [length].
  destruct (_ || _).
  - destruct (take_sets _ _) as [[sets terms2]| | |]; try discriminate E. cbn [bind] in E. destruct (_ =? 0); [discriminate E|].
    destruct (split_blocks _ _ _ _ _ _ _) as [rest| | |] eqn:Er; try discriminate E. cbn [bind] in E. injection E as <-. apply IH in Er as [A B]. split; [cbn [length]; lia|].
    constructor; [cbn; lia|]. eapply Forall_impl; [|exact B]. cbn. intros b Hb. lia.
  - apply IH in E as [A B]. split; [lia|]. eapply Forall_impl; [|exact B]. cbn. intros b Hb. lia.
Qed.
Lemma binv_fit u P m d : (N.of_nat u < 4294967296)%N -> P <> [] -> Forall (ok_list u) P -> (N.of_nat (length (concat P)) < 4294967295)%N -> bi_build_d m u P = Ok d -> fit_binv d.
Proof.
  intros Hu Hne HP Hfew E. unfold bi_build_d in E.
  destruct (split_blocks_ok u P HP m P 1 1 0 [] (repeat [] u)) with (s := 1) as (bs & Eb & Hb); auto; try lia.
  - intros t. split; [intros []|intros (t' & A & _); lia].
  - apply repeat_length.
  - intros t Ht. rewrite nth_repeat. reflexivity.
  - rewrite Eb in E. cbn [bind] in E. destruct (split_length _ _ _ _ _ _ _ _ Eb) as [Hbl Hbb]. pose proof (T_few u P HP) as HT.
    assert (Hne' : forall A (f : blk -> A), map f bs <> []).
    { intros A f E0. apply map_eq_nil in E0. subst. cbn in Hb. destruct P; [congruence|]. cbn in Hb. lia. }
    assert (Hnb : forall A (f : blk -> list A) B (g : list A -> B), map g (map f bs) <> []) by (intros A f B g E0; apply map_eq_nil in E0; now apply Hne' in E0).
    assert (Hall : forall B, In B bs -> exists i, nth_error bs i = Some B) by (intros B HB; now apply In_nth_error in HB).
    assert (Hsz : forall B, In B bs -> length (blk_docs B) = length (blk_sets B) /\ 1 <= length (concat (blk_sets B)) /\ length (blk_sets B) <= length (concat (blk_sets B))).
    { intros B HB. destruct (Hall B HB) as (i & Hi). destruct (blk_facts u Hu P HP Hfew bs i B Hb Hi) as (A1 & A2 & A3 & A4 & A5 & A6 & _).
      destruct (blks_nth P bs 1 1 i B Hb Hi) as (_ & _ & _ & _ & Hsets & _). split; [now rewrite Hsets, map_length|].
      split; [destruct (concat (blk_sets B)); [congruence|cbn; lia]|]. clear -A4. induction A4 as [|s l Hs Hl IH]; [cbn; lia|]. cbn [concat length]. rewrite app_length. destruct s; [congruence|]. cbn. lia. }
    pose proof (blks_total u Hu P Hfew bs 1 1 ltac:(lia) Hb) as Htot. cbn [Nat.sub skipn] in Htot.
    assert (Hfew' : forall A B (f : blk -> A) (g : A -> B), few (length (map g (map f bs)))) by (intros; unfold few; rewrite !map_length; lia).
    assert (D1 : Forall (ok_list u) (map blk_docs bs)).
    { apply Forall_map, Forall_forall. intros B HB. destruct (Hall B HB) as (i & Hi). destruct (blk_facts u Hu P HP Hfew bs i B Hb Hi) as (A1 & A2 & A3 & _). repeat split; assumption. }
    assert (D2 : length (concat (map blk_docs bs)) <= length (concat P)).
    { pose proof (lists_few u Hu P Hfew blk_docs (fun b => concat (blk_sets b)) bs 1) as Hlf.
      assert (length (concat (map blk_docs bs)) <= 1 * length (concat (map (fun b => concat (blk_sets b)) bs))) by (apply Hlf; intros B HB; destruct (Hsz B HB); lia). lia. }
    assert (O2 : length (concat (map (fun b => offsets_from 0 (blk_sets b)) bs)) <= 2 * length (concat P)).
    { pose proof (lists_few u Hu P Hfew (fun b => offsets_from 0 (blk_sets b)) (fun b => concat (blk_sets b)) bs 2) as Hlf.
      assert (Ho2 : forall l o, length (offsets_from o l) = length l + 1) by (clear; induction l as [|s l IH]; intros o; cbn; [reflexivity|now rewrite IH]).
      assert (length (concat (map (fun b => offsets_from 0 (blk_sets b)) bs)) <= 2 * length (concat (map (fun b => concat (blk_sets b)) bs))) by (apply Hlf; intros B HB; rewrite Ho2; destruct (Hsz B HB); lia). lia. }
    destruct (records_d (write_docs _) _) as [[pl l]| | |] eqn:E1; try discriminate E. cbn [bind] in E.
    apply (records_fit _ (enc_docs (N.of_nat u)) (fun l => 432 * length l) (fun l => good_list (N.of_nat u) l /\ fits32 l)) in E1 as [F1 F2]; auto.
    2:{ intros b L x Hx Hg. apply write_docs_ok; auto. now apply small_u. }
    2:{ pose proof (lists_good u _ D1) as Hg. apply Forall_forall. intros x Hx. split; [rewrite Forall_forall in Hg; apply Hg; [lia|exact Hx]|].
        apply in_map_iff in Hx as (x' & <- & Hx). rewrite Forall_forall in D1. destruct (D1 x' Hx) as (_ & H2 & H3). unfold fits32. rewrite map_length.
        pose proof (in_length_increasing 0%N eq_refl u x' H2 H3). assert (2 ^ 32 = 4294967296)%N by reflexivity. lia. }
    2:{ rewrite total_linear, length_concat_map. lia. }
    destruct (records_d write_offsets _) as [[po o]| | |] eqn:E2; try discriminate E. cbn [bind] in E.
    apply (records_fit _ enc_offsets (fun l => 464 * length l) good_offsets write_offsets_ok) in E2 as [F3 F4]; auto.
    2:{ apply Forall_map, Forall_map, Forall_forall. intros B HB. destruct (Hall B HB) as (i & Hi).
        destruct (blk_facts u Hu P HP Hfew bs i B Hb Hi) as (A1 & A2 & A3 & A4 & A5 & _). destruct (offsets_from_ok (blk_sets B) 0 A4) as [I1 I2].
        remember (offsets_from 0 (blk_sets B)) as ol. assert (H1 : ol <> []) by (subst ol; destruct (blk_sets B); discriminate).
        unfold good_offsets, off_u. rewrite last_map_N.
        assert (Hlast : (N.of_nat (last ol 0%nat) < 4294967295)%N).
        { rewrite Forall_forall in I2. assert (last ol 0 <= 0 + length (concat (blk_sets B))); [|lia]. apply I2. clear -H1. destruct ol as [|x l]; [congruence|]. clear H1. revert x. induction l as [|y l IH]; intros x; [now left|]. right. apply IH. }
        pose proof (increasing_last 0%N eq_refl ol H1 I1) as Hbd. pose proof (in_length_increasing 0%N eq_refl _ _ I1 Hbd).
        assert (2 ^ 32 = 4294967296)%N by reflexivity.
        split; [|split; [unfold fits32; rewrite map_length; lia|lia]].
        split; [intros E0; apply map_eq_nil in E0; congruence|]. split; [now apply sorted_nondec, increasing_sorted|].
        split; [apply Forall_map; eapply Forall_impl; [|exact Hbd]; cbn; lia|]. rewrite map_length. apply small_32. lia. }
    2:{ rewrite total_linear, length_concat_map. lia. }
    destruct (records_d write_terms _) as [[pt t]| | |] eqn:E3; try discriminate E. cbn [bind] in E.
    apply (records_fit _ enc_terms (fun l => 38 * length l) good_terms write_terms_ok) in E3 as [F5 F6]; auto.
    2:{ apply Forall_map, Forall_map, Forall_forall. intros B HB. destruct (Hall B HB) as (i & Hi).
        destruct (blk_facts u Hu P HP Hfew bs i B Hb Hi) as (A1 & A2 & A3 & A4 & A5 & A6 & A7). split; [intros E0; apply map_eq_nil in E0; congruence|].
        apply Forall_map. eapply Forall_impl; [|exact A7]. cbn. intros x Hx. lia. }
    2:{ rewrite total_linear, length_concat_map. lia. }
    injection E as <-. constructor; cbn [xd_integers xd_docs xd_terms_num xd_blocks xd_lists_ptrs xd_lists xd_offsets_ptrs xd_offsets xd_terms_ptrs xd_terms]; try assumption; try (unfold in64, W64; lia).
    split; [unfold long; rewrite map_length; unfold W64; lia|]. apply Forall_map. eapply Forall_impl; [|exact Hbb]. unfold in32. cbn. intros b Hx. lia.
Qed.

(** ** Whole indexes *)
Section Whole.
  Variable c : collection.
  Hypothesis Hwf : wf_collection c.
  Hypothesis Hd : small_dict c.

  Lemma records_snd : map snd (S_Trie.records (docs c) (comps c)) = map terminated (comps c).
  Proof.
    pose proof (wf_docs_len c Hwf) as H. unfold S_Trie.records. revert H. generalize (comps c), (docs c). intros cs.
    induction cs as [|a cs IH]; intros [|d ds] H; try discriminate; [reflexivity|]. cbn in *. f_equal. apply IH. congruence.
  Qed.
  Lemma records_fst : map fst (S_Trie.records (docs c) (comps c)) = docs c.
  Proof.
    pose proof (wf_docs_len c Hwf) as H. unfold S_Trie.records. revert H. generalize (comps c), (docs c). intros cs.
    induction cs as [|a cs IH]; intros [|d ds] H; try discriminate; [reflexivity|]. cbn in *. f_equal. apply IH. congruence.
  Qed.
  Lemma records_len : length (S_Trie.records (docs c) (comps c)) = length (comps c).
  Proof. rewrite <- (map_length fst), records_fst. apply (wf_docs_len c Hwf). Qed.
  Lemma dict_c d : fc_build (terms c) = Ok d -> fit_dict d.
  Proof. destruct Hd. now apply dict_fit. Qed.
  Lemma docs_c d : ulist_build_d (docs c) = Ok d -> fit_ulist d.
  Proof.
    apply ulist_fit; [now apply docs_few|]. eapply Forall_impl; [|apply (wf_docs_lt c Hwf)]. cbn. intros x Hx. pose proof (wf_universe c Hwf). lia.
  Qed.
  Lemma min_c mins d : minimal_doc_ids (postings c) = Ok mins -> ulist_build_d mins = Ok d -> fit_ulist d.
  Proof.
    intros Em. rewrite minimal_doc_ids_ok in Em by (eapply Forall_impl; [|exact (postings_ok c Hwf)]; cbn; tauto). injection Em as <-.
    apply ulist_fit; [exact (minimals_few c Hwf)|]. apply Forall_map. eapply Forall_impl; [|exact (postings_ok c Hwf)]. cbn. intros l (Hl & _ & Hlt). destruct l as [|x l]; [congruence|].
    inversion Hlt; subst. cbn. pose proof (wf_universe c Hwf). lia.
  Qed.
  Lemma inv_c d : inv_build_d (universe c) (postings c) = Ok d -> fit_inv d.
  Proof.
    pose proof (wf_universe c Hwf). pose proof (wf_few c Hwf) as [_ Hf]. apply inv_fit; [lia|exact (postings_ne c Hwf)| |exact (postings_ok c Hwf)|now apply postings_few].
    unfold few. rewrite postings_length. lia.
  Qed.
  Lemma fwd_c d : fwd_build_d (length (terms c)) (forwards c) = Ok d -> fit_fwd d.
  Proof.
    apply fwd_fit; [now apply T_bound| |now apply forwards_le|].
    - unfold forwards. rewrite map_length, seq_length. pose proof (wf_universe c Hwf). lia.
    - assert (H : length (concat (forwards c)) <= 63 * length (forwards c)).
      { apply concat_length_bound. apply Forall_forall. intros l Hl. apply in_map_iff in Hl. destruct Hl as (d' & <- & _).
        destruct (forward_cases c Hwf d') as [->|Hin]; [cbn; lia|]. destruct (wf_comps c Hwf) as (_ & _ & Hw).
        rewrite Forall_forall in Hw. destruct (Hw _ Hin) as [_ Hlen]. lia. }
      unfold forwards in H at 2. rewrite map_length, seq_length in H. pose proof (wf_universe c Hwf). lia.
  Qed.
  Lemma idict_c d : ifc_build (map terminated (comps c)) = Ok d -> fit_idict d.
  Proof.
    destruct (wf_comps c Hwf) as (_ & _ & Hw). destruct (wf_few c Hwf) as [Hf _]. apply idict_fit.
    - apply Forall_map. eapply Forall_impl; [|exact Hw]. intros x [Hx _]. apply Forall_app. split; [|repeat constructor]. eapply Forall_impl; [|exact Hx]. cbn. lia.
    - assert (H : length (concat (map terminated (comps c))) <= 64 * length (map terminated (comps c))).
      { apply concat_length_bound. apply Forall_map. eapply Forall_impl; [|exact Hw]. intros x [_ Hx]. unfold terminated. rewrite app_length. cbn [length]. lia. }
      rewrite map_length in H. lia.
    - unfold few. rewrite map_length. lia.
  Qed.

  Lemma index1_fit d : ac1_build_d (files_of c) = Ok d -> fit1 d.
  Proof.
    unfold ac1_build_d, files_of. cbn [f_dict f_mapped f_levels f_universe f_inverted f_forward]. fold (postings c) (forwards c).
    pose proof (trie_build_eq (comps c) (wf_comps c Hwf) (docs c) (wf_docs_len c Hwf)) as Et. rewrite Et. cbn [bind the_arrays ta_docs].
    destruct (fc_build _) as [dict| | |] eqn:E1; try discriminate. cbn [bind].
    destruct (minimal_doc_ids _) as [mins| | |] eqn:E2; try discriminate. cbn [bind].
    destruct (inv_build_d _ _) as [inv| | |] eqn:E3; try discriminate. cbn [bind].
    destruct (fwd_build_d _ _) as [fw| | |] eqn:E4; try discriminate. cbn [bind].
    destruct (ulist_build_d (docs c)) as [dl| | |] eqn:E5; try discriminate. cbn [bind].
    destruct (ulist_build_d mins) as [ml| | |] eqn:E6; try discriminate. cbn [bind]. rewrite records_len.
    destruct (trie_store_d _ _) as [tr| | |] eqn:E7; try discriminate. cbn [bind]. intros E. injection E as <-.
    constructor; cbn [d1_comps d1_docs d1_min d1_dict d1_inv d1_fwd].
    - eapply trie_fit; [apply (wf_comps c Hwf)|apply (wf_docs_len c Hwf)|apply (wf_few c Hwf)|exact Et|exact E7].
    - now apply docs_c.
    - now apply (min_c mins).
    - now apply dict_c.
    - now apply inv_c.
    - now apply fwd_c.
  Qed.

  Lemma core_fit cm dl dict lexid : core_build_d (files_of c) = Ok (cm, dl, dict, lexid) -> fit_idict cm /\ fit_ulist dl /\ fit_dict dict /\ fit_cvec lexid.
  Proof.
    unfold core_build_d, files_of. cbn [f_dict f_mapped f_levels f_universe]. rewrite records_snd, records_fst, records_len.
    destruct (ifc_build _) as [cm'| | |] eqn:E1; try discriminate. cbn [bind].
    destruct (docid_to_lexid_any (universe c) (docs c) (wf_docs_nodup c Hwf) (proj1 (Forall_forall _ _) (wf_docs_lt c Hwf))) as (m & Em & Lm & Hm). rewrite Em. cbn [bind].
    destruct (fc_build _) as [dict'| | |] eqn:E2; try discriminate. cbn [bind].
    destruct (cv_build_width _ _) as [lx| | |] eqn:E3; try discriminate. cbn [bind].
    pose proof (wf_docs_len c Hwf) as Hdl. destruct (wf_few c Hwf) as [Hf _]. pose proof (wf_universe c Hwf) as Hu. pose proof (comps_nonempty c Hwf) as Hne.
    assert (Hk : length (S_Vocab.stored (docs c)) <= length (comps c)) by (rewrite <- Hdl; apply stored_le).
    rewrite (invert_kept m _ (length (comps c)) Hk Hm). cbn [bind].
    destruct (ulist_build_d _) as [ul| | |] eqn:E4; try discriminate. cbn [bind]. intros E. injection E as <- <- <- <-.
    split; [now apply idict_c|]. split; [|split; [now apply dict_c|]].
    - apply ulist_fit in E4; [exact E4|rewrite app_length, repeat_length; lia|].
      apply Forall_app. split; apply Forall_forall; intros x Hx.
      + apply stored_In in Hx. pose proof (wf_docs_lt c Hwf) as H3. rewrite Forall_forall in H3. specialize (H3 x Hx). cbn in H3. lia.
      + apply repeat_spec in Hx. subst. reflexivity.
    - destruct (width_ok (N.of_nat (length (comps c)))) as [W _]; [lia|]. apply cvec_fit in E3; [exact E3|lia| |unfold few; rewrite map_length, Lm; lia].
      apply Forall_map, Forall_forall. intros [i|] Ho; cbn [lexid_word]; [|reflexivity].
      apply In_nth_error in Ho. destruct Ho as [dd Ho]. apply Hm in Ho. assert (i < length (S_Vocab.stored (docs c))) by (apply nth_error_Some; congruence). unfold W64. lia.
  Qed.
  Lemma index2_fit d : ac2_build_d (files_of c) = Ok d -> fit2 d.
  Proof.
    unfold ac2_build_d. destruct (core_build_d _) as [[[[cm dl] dict] lexid]| | |] eqn:E0; try discriminate. cbn [bind]. apply core_fit in E0 as (A & B & C & D).
    unfold files_of. cbn [f_universe f_inverted]. fold (postings c).
    destruct (minimal_doc_ids _) as [mins| | |] eqn:E2; try discriminate. cbn [bind].
    destruct (inv_build_d _ _) as [inv| | |] eqn:E3; try discriminate. cbn [bind].
    destruct (ulist_build_d mins) as [ml| | |] eqn:E6; try discriminate. cbn [bind]. intros E. injection E as <-.
    constructor; cbn [d2_comps d2_docs d2_min d2_dict d2_inv d2_lexid]; try assumption; [now apply (min_c mins)|now apply inv_c].
  Qed.
  Lemma index3_fit d : ac3_build_d (files_of c) = Ok d -> fit3 d.
  Proof.
    unfold ac3_build_d. destruct (core_build_d _) as [[[[cm dl] dict] lexid]| | |] eqn:E0; try discriminate. cbn [bind]. apply core_fit in E0 as (A & B & C & D).
    unfold files_of. cbn [f_universe f_inverted]. fold (postings c).
    destruct (inv_build_d _ _) as [inv| | |] eqn:E3; try discriminate. cbn [bind]. intros E. injection E as <-.
    constructor; cbn [d3_comps d3_docs d3_dict d3_inv d3_lexid]; try assumption. now apply inv_c.
  Qed.
  Lemma index4_fit m d : few_postings c -> ac4_build_d m (files_of c) = Ok d -> fit4 d.
  Proof.
    intros Hfew. unfold ac4_build_d. destruct (core_build_d _) as [[[[cm dl] dict] lexid]| | |] eqn:E0; try discriminate. cbn [bind]. apply core_fit in E0 as (A & B & C & D).
    unfold files_of. cbn [f_universe f_inverted]. fold (postings c).
    destruct (bi_build_d _ _ _) as [inv| | |] eqn:E3; try discriminate. cbn [bind]. intros E. injection E as <-.
    constructor; cbn [d4_comps d4_docs d4_dict d4_inv d4_lexid]; try assumption.
    apply binv_fit in E3; [exact E3|exact (universe_lt c Hwf)|exact (postings_ne c Hwf)|exact (postings_ok c Hwf)|exact Hfew].
  Qed.
End Whole.
