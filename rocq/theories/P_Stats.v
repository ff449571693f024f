(** print_stats of the indexes built from well-formed collections is accurate. *)
From Coq Require Import String ZArith Lia.
From Verif Require Import Base S_Completions S_Vocab S_Trie S_Collection M_Fc M_IntFc M_Trie M_Auto M_Auto1 M_Auto2 M_Blocked P_TrieBuild P_Trie P_TrieFinal P_Collection P_Query P_Fit3.
From Verif Require Import M_Cvec M_EfSeq M_Stored M_Save M_Bytes S_Stats P_Bytes.
Local Open Scope nat_scope.

Lemma fc_build_size l d : fc_build l = Ok d -> fc_size d = length l.
Proof. unfold fc_build. destruct (fc_write_buckets _ _ _ _ _ _ _ _ _) as [[[[? ?] ?] ?]| | |]; try discriminate. intros E. injection E as <-. reflexivity. Qed.
Lemma ifc_build_size l d : ifc_build l = Ok d -> fc_size d = length l.
Proof. unfold ifc_build. destruct (fc_write_buckets _ _ _ _ _ _ _ _ _) as [[[[? ?] ?] ?]| | |]; try discriminate. intros E. injection E as <-. reflexivity. Qed.
Lemma inv_build_ints u l d : inv_build_d u l = Ok d -> vd_integers d = length (concat l).
Proof. unfold inv_build_d. destruct (records_d _ _) as [[? ?]| | |]; try discriminate. intros E. injection E as <-. reflexivity. Qed.
Lemma fwd_build_ints u l d : fwd_build_d u l = Ok d -> wd_integers d = length (concat l).
Proof. unfold fwd_build_d. destruct (cv_build_width _ _); try discriminate. cbn [bind]. destruct (ef_build _); try discriminate. intros E. injection E as <-. reflexivity. Qed.
Lemma bi_build_ints m u l d : bi_build_d m u l = Ok d -> xd_integers d = length (concat l) /\ length (xd_blocks d) <= length l.
Proof.
  unfold bi_build_d. destruct (split_blocks _ _ _ _ _ _ _) as [bs| | |] eqn:Eb; try discriminate. cbn [bind].
  do 3 (destruct (records_d _ _) as [[? ?]| | |]; try discriminate; cbn [bind]). intros E. injection E as <-. split; [reflexivity|].
  cbn [xd_blocks]. rewrite map_length. exact (proj1 (split_length _ _ _ _ _ _ _ _ Eb)).
Qed.
Lemma store_shaped cs docs size d : 0 < num_levels cs -> trie_store_d size (the_arrays cs docs) = Ok d -> shaped d /\ td_size d = size.
Proof.
  intros HL. unfold trie_store_d. cbn [the_arrays ta_nodes ta_ptrs ta_left ta_sizes].
  destruct (map_res ef_build _) as [e1| | |] eqn:E1; try discriminate. cbn [bind].
  destruct (map_res ef_build_nat (tab (final_ptrs cs) _)) as [e2| | |] eqn:E2; try discriminate. cbn [bind].
  match goal with |- context [map_res ef_build_nat ?l] => destruct (map_res ef_build_nat l) as [e3| | |] eqn:E3; try discriminate end. cbn [bind].
  match goal with |- context [map_res ef_build_nat ?l] => destruct (map_res ef_build_nat l) as [e4| | |] eqn:E4; try discriminate end. cbn [bind].
  intros E. injection E as <-. split; [|reflexivity]. exists (num_levels cs - 1). cbn [td_nodes td_left td_sizes td_ptrs].
  apply (map_res_inv _ (fun _ => True)) in E1 as [L1 _]; [|trivial]. apply (map_res_inv _ (fun _ => True)) in E2 as [L2 _]; [|trivial].
  apply (map_res_inv _ (fun _ => True)) in E3 as [L3 _]; [|trivial]. apply (map_res_inv _ (fun _ => True)) in E4 as [L4 _]; [|trivial].
  rewrite L1, L2, L3, L4, !tab_length. lia.
Qed.

Ltac group_done := constructor; cbn [g_total g_completions g_what g_under g_bytes];
  [reflexivity|reflexivity|repeat (apply Forall_cons || apply Forall_nil); cbn; auto|
   first [left; reflexivity|right; unfold list_sum; cbn [map line_bytes fold_right]]].
Ltac groups_done := repeat (apply Forall_cons || apply Forall_nil); group_done.
Section Stats.
  Variable c : collection.
  Hypothesis Hwf : wf_collection c.
  Lemma levels_pos : 0 < num_levels (comps c).
  Proof. destruct (wf_comps c Hwf) as (_ & Hne & _). unfold num_levels. destruct (comps c) as [|x l]; [congruence|]. cbn [map fold_right]. lia. Qed.

  Lemma stats1 fresh d : ac1_build_d (files_of c) = Ok d ->
    exists lines, print_stats1 d = Ok lines /\ accurate_stats c (length (save (visit_index1 fresh) d)) lines.
  Proof.
    pose proof (words_count c Hwf) as Hw. pose proof (postings_count c Hwf) as Hp.
    unfold ac1_build_d. destruct (trie_build _ _) as [ta| | |] eqn:E0; try discriminate. cbn [bind].
    change (trie_build (num_levels (comps c)) (records (docs c) (comps c)) = Ok ta) in E0.
    rewrite (trie_build_eq (comps c) (wf_comps c Hwf) (docs c) (wf_docs_len c Hwf)) in E0. injection E0 as <-.
    destruct (fc_build _) as [dict| | |] eqn:E1; try discriminate. cbn [bind].
    destruct (minimal_doc_ids _) as [mins| | |]; try discriminate. cbn [bind].
    destruct (inv_build_d _ _) as [inv| | |] eqn:E3; try discriminate. cbn [bind].
    destruct (fwd_build_d _ _) as [fw| | |] eqn:E4; try discriminate. cbn [bind].
    destruct (ulist_build_d (ta_docs _)) as [dl| | |]; try discriminate. cbn [bind].
    destruct (ulist_build_d mins) as [ml| | |]; try discriminate. cbn [bind].
    destruct (trie_store_d _ _) as [tr| | |] eqn:E7; try discriminate. cbn [bind]. intros E. injection E as E.
    apply fc_build_size in E1. apply inv_build_ints in E3. apply fwd_build_ints in E4. rewrite Hp in E3. rewrite Hw in E4. cbn [files_of f_dict] in E1.
    apply (store_shaped _ _ _ _ levels_pos) in E7 as [Hs Hsz]. cbn [files_of f_mapped] in Hsz. rewrite (records_len c Hwf) in Hsz.
    unfold print_stats1. rewrite (index1_len fresh d) by (subst d; exact Hs). cbn [bind]. set (size := length (save (visit_index1 fresh) d)).
    assert (Hsize : Ok size = index1_bytes d) by (symmetry; apply index1_len; subst d; exact Hs). clearbody size. unfold index1_bytes in Hsize.
    subst d. cbn [d1_comps d1_docs d1_min d1_dict d1_inv d1_fwd] in *. rewrite (trie_bytes_eq tr Hs) in *. cbn [bind] in *. rewrite (trie_pointers_eq tr Hs). cbn [bind].
    rewrite Hsz, E1, E3, E4. apply (f_equal (fun r => match r with Ok x => x | _ => 0 end)) in Hsize. eexists. split; [reflexivity|].
    unfold trie_nodes_bytes, trie_left_extremes_bytes, trie_sizes_bytes. rewrite !each_eq.
    eexists _, _. split; [reflexivity|]. split; [reflexivity|]. split; [unfold list_sum; cbn [map g_bytes fold_right]; lia|].
    groups_done; unfold dict_bytes, dict_data_bytes, dict_pointer_bytes, inv_bytes, inv_data_bytes, inv_pointer_bytes, fwd_bytes, fwd_data_bytes, fwd_pointer_bytes; lia.
  Qed.

  Lemma core_sizes cm dl dict lexid : core_build_d (files_of c) = Ok (cm, dl, dict, lexid) -> fc_size cm = length (comps c) /\ fc_size dict = length (terms c).
  Proof.
    unfold core_build_d. destruct (ifc_build _) as [cm'| | |] eqn:E1; try discriminate. cbn [bind].
    destruct (ifc_docid_to_lexid _ _) as [m| | |]; try discriminate. cbn [bind].
    destruct (fc_build _) as [dict'| | |] eqn:E2; try discriminate. cbn [bind].
    destruct (cv_build_width _ _); try discriminate. cbn [bind]. destruct (invert _ _); try discriminate. cbn [bind].
    destruct (ulist_build_d _); try discriminate. cbn [bind]. intros E. injection E as <- _ <- _.
    apply ifc_build_size in E1. apply fc_build_size in E2. cbn [files_of f_dict f_mapped] in E1, E2. rewrite map_length, (records_len c Hwf) in E1. tauto.
  Qed.
  Lemma stats2 d : ac2_build_d (files_of c) = Ok d -> accurate_stats c (length (save visit_index2 d)) (print_stats2 d).
  Proof.
    pose proof (postings_count c Hwf) as Hp. unfold ac2_build_d. destruct (core_build_d _) as [[[[cm dl] dict] lexid]| | |] eqn:E0; try discriminate. cbn [bind].
    apply core_sizes in E0 as [S1 S2]. destruct (minimal_doc_ids _) as [mins| | |]; try discriminate. cbn [bind].
    destruct (inv_build_d _ _) as [inv| | |] eqn:E3; try discriminate. cbn [bind]. apply inv_build_ints in E3. rewrite Hp in E3.
    destruct (ulist_build_d mins) as [ml| | |]; try discriminate. cbn [bind]. intros E. injection E as E.
    rewrite index2_len. unfold print_stats2. set (size := index2_bytes d). assert (Hsize : size = index2_bytes d) by reflexivity. clearbody size. unfold index2_bytes in Hsize.
    subst d. cbn [d2_comps d2_docs d2_min d2_dict d2_inv d2_lexid] in *. cbv zeta. rewrite S1, S2, E3.
    eexists _, _. split; [reflexivity|]. split; [reflexivity|]. split; [unfold list_sum; cbn [map g_bytes fold_right]; lia|].
    groups_done; unfold idict_bytes, idict_data_bytes, idict_pointer_bytes, dict_bytes, dict_data_bytes, dict_pointer_bytes, inv_bytes, inv_data_bytes, inv_pointer_bytes; lia.
  Qed.
  Lemma stats3 d : ac3_build_d (files_of c) = Ok d -> accurate_stats c (length (save visit_index3 d)) (print_stats3 d).
  Proof.
    pose proof (postings_count c Hwf) as Hp. unfold ac3_build_d. destruct (core_build_d _) as [[[[cm dl] dict] lexid]| | |] eqn:E0; try discriminate. cbn [bind].
    apply core_sizes in E0 as [S1 S2].
    destruct (inv_build_d _ _) as [inv| | |] eqn:E3; try discriminate. cbn [bind]. apply inv_build_ints in E3. rewrite Hp in E3. intros E. injection E as E.
    rewrite index3_len. unfold print_stats3. set (size := index3_bytes d). assert (Hsize : size = index3_bytes d) by reflexivity. clearbody size. unfold index3_bytes in Hsize.
    subst d. cbn [d3_comps d3_docs d3_dict d3_inv d3_lexid] in *. cbv zeta. rewrite S1, E3.
    eexists _, _. split; [reflexivity|]. split; [reflexivity|]. split; [unfold list_sum; cbn [map g_bytes fold_right]; lia|].
    groups_done; unfold inv_bytes, inv_data_bytes, inv_pointer_bytes; lia.
  Qed.
  Lemma stats4 m d : ac4_build_d m (files_of c) = Ok d -> accurate_stats c (length (save visit_index4 d)) (print_stats4 d).
  Proof.
    pose proof (postings_count c Hwf) as Hp. unfold ac4_build_d. destruct (core_build_d _) as [[[[cm dl] dict] lexid]| | |] eqn:E0; try discriminate. cbn [bind].
    apply core_sizes in E0 as [S1 S2].
    destruct (bi_build_d _ _ _) as [inv| | |] eqn:E3; try discriminate. cbn [bind]. apply bi_build_ints in E3 as [E3 Hb]. rewrite Hp in E3. intros E. injection E as E.
    cbn [files_of f_inverted] in Hb. rewrite map_length, seq_length in Hb.
    rewrite index4_len. unfold print_stats4. set (size := index4_bytes d). assert (Hsize : size = index4_bytes d) by reflexivity. clearbody size. unfold index4_bytes in Hsize.
    subst d. cbn [d4_comps d4_docs d4_dict d4_inv d4_lexid] in *. cbv zeta. rewrite S1, E3.
    eexists _, _. split; [reflexivity|]. split; [reflexivity|]. split; [unfold list_sum; cbn [map g_bytes fold_right]; lia|].
    groups_done; unfold binv_bytes, binv_blocks_bytes, binv_pointers_bytes, binv_docs_bytes, binv_offsets_bytes, binv_terms_bytes; lia.
  Qed.
End Stats.
