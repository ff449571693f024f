(** Reading the files of a collection. *)
From Verif Require Import Base S_Order S_Vocab S_Completions S_Trie M_Trie M_Auto M_Text M_Input S_Text S_Collection S_Files P_Input P_Collection P_Query.
Local Open Scope nat_scope.

Lemma valid_rec_ok r : valid_record r -> rec_ok r.
Proof. intros (H1 & H2). split; [exact H1|exact H2]. Qed.
Lemma read_mapped_ok recs fuel junk text : Forall valid_record recs -> numbers (concat (map record_numbers recs)) text -> length text < fuel ->
  exists e, read_mapped fuel junk text = Ok (map terminate recs, e) /\ showing e [].
Proof.
  intros Hr Hn Hf. destruct (fuel_text recs text fuel Hn Hf) as (Hf1 & Hf2).
  assert (Hr' : Forall rec_ok recs) by (eapply Forall_impl; [|exact Hr]; exact valid_rec_ok).
  unfold read_mapped. destruct (ci_open_ok recs fuel junk text Hr' Hf1 Hn) as (it & -> & Hs). cbn [bind].
  exact (read_while_ok recs fuel fuel it Hr' Hf1 Hs Hf2).
Qed.
Lemma read_mapped_n_ok recs fuel junk text : Forall valid_record recs -> numbers (concat (map record_numbers recs)) text -> length text < fuel ->
  exists e, read_mapped_n fuel (length recs) junk text = Ok (map terminate recs, e) /\ showing e [].
Proof.
  intros Hr Hn Hf. destruct (fuel_text recs text fuel Hn Hf) as (Hf1 & Hf2).
  assert (Hr' : Forall rec_ok recs) by (eapply Forall_impl; [|exact Hr]; exact valid_rec_ok).
  unfold read_mapped_n. destruct (ci_open_ok recs fuel junk text Hr' Hf1 Hn) as (it & -> & Hs). cbn [bind].
  exact (read_count_ok recs fuel it Hr' Hf1 Hs).
Qed.

Lemma map_concat_eq {A} (f g : A -> list N) l : (forall x, f x = g x) -> concat (map f l) = concat (map g l).
Proof. intros H. f_equal. apply map_ext. exact H. Qed.

Section Coll.
  Context (c : collection) (Hwf : wf_collection c).

  Lemma levels_le : num_levels (comps c) <= 64.
  Proof.
    destruct (wf_comps c Hwf) as (_ & _ & H). unfold num_levels. induction H as [|x l (_ & Hx) _ IH]; [cbn; lia|]. cbn [map fold_right]. lia.
  Qed.
  Lemma coll_records_valid : Forall valid_record (combine (map N.of_nat (docs c)) (comps c)).
  Proof.
    apply Forall_forall. intros [d ids] H. destruct (wf_comps c Hwf) as (_ & _ & Hc). rewrite Forall_forall in Hc. specialize (Hc ids (in_combine_r _ _ _ _ H)).
    apply in_combine_l in H. apply in_map_iff in H as (d0 & <- & Hd). pose proof (wf_docs_lt c Hwf) as Hlt. rewrite Forall_forall in Hlt. specialize (Hlt d0 Hd).
    pose proof (wf_universe c Hwf). split; cbn [fst snd]; [change (2 ^ 32)%N with 4294967296%N; lia|].
    eapply Forall_impl; [|exact (proj1 Hc)]. cbn beta. change (2 ^ 32)%N with 4294967296%N. lia.
  Qed.
  Lemma coll_records : map (fun r => (N.to_nat (fst r), snd r)) (map terminate (combine (map N.of_nat (docs c)) (comps c))) = records (docs c) (comps c).
  Proof.
    unfold records. rewrite map_map. cbn [terminate fst snd]. generalize (comps c). induction (docs c) as [|d ds IH]; intros [|x cs]; [reflexivity..|].
    cbn [map combine]. rewrite IH. unfold terminate, terminated. cbn [fst snd]. rewrite Nat2N.id. reflexivity.
  Qed.
  Lemma posting_small x : small32 (N.of_nat (length (map N.of_nat (posting_list c x)))) /\ Forall small32 (map N.of_nat (posting_list c x)).
  Proof.
    pose proof (wf_universe c Hwf) as Hu. unfold small32. split.
    - rewrite map_length. enough (length (posting_list c x) <= universe c) by lia. unfold posting_list.
      rewrite <- (seq_length (universe c) 0) at 2. generalize (seq 0 (universe c)). induction l as [|y l IH]; [cbn; lia|]. cbn [filter]. destruct (existsb _ _); cbn [length]; lia.
    - apply Forall_forall. intros y Hy. apply in_map_iff in Hy as (d & <- & Hd). pose proof (posting_lt c x) as H. rewrite Forall_forall in H. specialize (H d Hd). lia.
  Qed.
  Lemma forward_small d : small32 (N.of_nat (length (forward_list c d))) /\ Forall small32 (forward_list c d).
  Proof.
    unfold small32. destruct (forward_cases c Hwf d) as [E|E]; [rewrite E; split; [reflexivity|constructor]|].
    destruct (wf_comps c Hwf) as (_ & _ & Hc). rewrite Forall_forall in Hc. destruct (Hc _ E) as (H1 & H2). split; [lia|].
    eapply Forall_impl; [|exact H1]. cbn. lia.
  Qed.

  Lemma read_files_ok trie fuel junk t : holds_collection c t -> length (t_mapped t) < fuel -> read_files trie fuel junk t = Ok (files_of c).
  Proof.
    intros [(len & nodes & S1 & S2 & S3 & S4) Hd Hm Hi Hfw] Hf. unfold read_files.
    pose proof levels_le as HL. pose proof (wf_universe c Hwf) as HU. destruct (wf_few c Hwf) as (Hc & Ht).
    rewrite (fun A B C D E => load_ok _ _ _ _ _ nodes _ A B C D E S4); [|repeat constructor; unfold small32; lia|exact S3|exact S1|lia|now rewrite S2]. cbn [bind pa_terms pa_comps pa_levels pa_universe].
    assert (Hr : exists e, (if trie then read_mapped fuel junk (t_mapped t) else read_mapped_n fuel (N.to_nat (N.of_nat (length (comps c)))) junk (t_mapped t)) =
      Ok (map terminate (combine (map N.of_nat (docs c)) (comps c)), e) /\ showing e []).
    { destruct trie; [exact (read_mapped_ok _ fuel junk _ coll_records_valid Hm Hf)|].
      rewrite Nat2N.id. replace (length (comps c)) with (length (combine (map N.of_nat (docs c)) (comps c))) by (rewrite combine_length, map_length, (wf_docs_len c Hwf); lia).
      exact (read_mapped_n_ok _ fuel junk _ coll_records_valid Hm Hf). }
    destruct Hr as (e & -> & _). cbn [bind]. rewrite !Nat2N.id. unfold files_of. f_equal. f_equal.
    - destruct (read_words_ok (terms c) (open_file (t_dict t)) [] (before_open _ _ Hd)) as (st & -> & _). reflexivity.
    - apply coll_records.
    - destruct Hi as (ws & Hw & Hl).
      destruct (read_lists_ok (map (fun x => map N.of_nat (posting_list c x)) (seq 1 (length (terms c)))) ws (open_file (t_inverted t)) junk) as (st & E & _).
      + apply Forall_forall. intros l Hl'. apply in_map_iff in Hl' as (x & <- & _). apply posting_small.
      + rewrite map_map. exact Hw.
      + apply before_open. exact Hl.
      + rewrite map_length, seq_length in E. rewrite E. cbn [snd]. rewrite map_map. apply map_ext. intros x. rewrite map_map. rewrite <- (map_id (posting_list c x)) at 2.
        apply map_ext. intros d. apply Nat2N.id.
    - destruct Hfw as (ws & Hw & Hl). destruct (read_lists_ok (map (forward_list c) (seq 0 (universe c))) ws (open_file (t_forward t)) junk) as (st & E & _).
      + apply Forall_forall. intros l Hl'. apply in_map_iff in Hl' as (x & <- & _). apply forward_small.
      + rewrite map_map. exact Hw.
      + apply before_open. exact Hl.
      + rewrite map_length, seq_length in E. rewrite E. reflexivity.
  Qed.
End Coll.
