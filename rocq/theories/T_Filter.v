(** C47: completions chosen as queries (filter_and_preprocess.sh) are not in the collection, and no index made from it suggests them. *)
From Coq Require Import Permutation String.
From Verif Require Import Base S_Order S_Vocab S_Parse M_Heap S_Heap M_Iter M_Intersect S_Intersect M_Containers S_Containers M_Auto M_Auto1 S_Collection S_Index M_Auto2 S_Index2 M_Blocked S_Build.
From Verif Require Import M_Text M_Input S_Text S_Files M_Bits M_Cvec M_Darray M_EfSeq M_Fc M_CompactEf M_Real P_Real P_Auto1 P_Auto23 P_ListContainers S_Json.
From Verif Require Import P_Heap M_Stored M_Save P_Save P_Stored S_Save T_Auto1 T_Auto2 T_Auto4 T_Input T_Build T_End T_Save.
From Verif Require Import S_Python S_Prep M_Prep P_PrepText P_PrepDict P_PrepEnd T_Prep M_Filter S_Filter P_Filter.
Local Open Scope nat_scope.

(** Python 2: up to [n] completions of each length are written to the files of queries, whatever random.shuffle does; the files of the
    collection are those of the other completions. *)
Theorem C47_held_out : forall shuffle n es input, (forall i l, Permutation (shuffle i l) l) -> @valid_input py2 es -> @is_input py2 es input ->
  exists chosen rest, chooses n es chosen /\ others es chosen rest /\
    (rest <> [] -> exists t c, @filter_and_preprocess py2 shuffle n input = Ok (map one_per_line chosen, t) /\
       wf_collection c /\ @describes py2 rest c /\ holds_collection c t).
Proof.
  intros shuffle n es input Hsh Hv Hi. destruct (filter_ok shuffle n es input Hsh Hv Hi) as (chosen & rest & filtered & Hc & Ep & Ef & Ho & Hi' & Hv'). exists chosen, rest.
  split; [exact Hc|]. split; [exact Ho|]. intros Hne. destruct (preprocess_ok rest filtered (Hv' Hne) Hi') as (t & c & E & W & D & H & _). exists t, c.
  split; [|auto]. unfold filter_and_preprocess. rewrite Ep. cbn zeta. rewrite Ef. cbn [bind]. rewrite E. reflexivity.
Qed.

(** The files of queries, for both Pythons (preprocess.sh writes them, too): completions of the input, up to [n] of each length. *)
Theorem C47_queries : forall (py : python) shuffle n es input, (forall i l, Permutation (shuffle i l) l) -> valid_input es -> is_input es input ->
  exists chosen, chooses n es chosen /\ partition_queries shuffle n input = map one_per_line chosen.
Proof. intros py shuffle n es input Hsh Hv (ids & Hids & Ht). exact (files_chosen shuffle n Hsh es ids input Hv Hids Ht). Qed.

Lemma encoded_bytes2 s : @encoded py2 s = s.
Proof. induction s as [|c s IH]; [reflexivity|]. unfold encoded in *. cbn [flat_map code app]. now rewrite IH. Qed.
(** An answer over the rest has no chosen completion in it, and only completions of the input. *)
Theorem C47_never_suggested : forall n es chosen rest r out, @valid_input py2 es -> chooses n es chosen -> others es chosen rest -> @completes py2 rest r out ->
  forall d s, In (d, s) out -> (exists ws, In (d, ws) es /\ s = join ws) /\ forall e, In e (concat chosen) -> s <> join (snd e).
Proof.
  intros n es chosen rest r out Hv Hc Ho (ts & last & _ & _ & _ & H & _) d s Hin. destruct (H d s Hin) as (ws & Hw & _ & ->). rewrite encoded_bytes2. apply Ho in Hw as (Hw & Hn).
  split; [eauto|]. intros e He E. apply Hn. assert (Hee : In e es). { pose proof He as H2. apply in_concat in H2 as (l & Hl & H2). destruct (In_nth _ _ [] Hl) as (i & _ & <-). exact (proj1 (ch_from _ _ _ Hc i e H2)). }
  rewrite (join_entry es Hv (d, ws) e Hw Hee E). exact He.
Qed.

(** The whole way for types 1 to 3. *)
Theorem C47_served_partial : forall shuffle n es input, (forall i l, Permutation (shuffle i l) l) -> @valid_input py2 es -> @is_input py2 es input ->
  exists chosen rest, chooses n es chosen /\ others es chosen rest /\
  forall c, rest <> [] -> wf_collection c -> @describes py2 rest c -> sizes_ok2 c -> small_dict c -> some_doc_positive c -> some_term_not_in_doc0 c ->
  exists t, @filter_and_preprocess py2 shuffle n input = Ok (map one_per_line chosen, t) /\
  forall tail heap sort fuel junk fresh rs, (tail < 2 ^ 64)%N -> (forall A, std_heap (heap A)) -> sorts_by_size ce_ops sort ->
  length (t_mapped t) < fuel -> query_fuel c < fuel -> Forall (request_ok c) rs -> Forall (request_ok2 c) rs ->
  exists file1 file2 file3, build_tool ac1_build_d (visit_index1 fresh) true fuel junk t = Ok file1 /\
    build_tool ac2_build_d visit_index2 false fuel junk t = Ok file2 /\ build_tool ac3_build_d visit_index3 false fuel junk t = Ok file3 /\
    forall old1 old2 old3, exists outs1 outs2 outs3, serve1 tail heap sort fresh fuel old1 file1 rs = Ok outs1 /\
      serve2 tail heap sort fuel old2 file2 rs = Ok outs2 /\ serve3 tail heap sort fuel old3 file3 rs = Ok outs3 /\
      forall d s out, In out (outs1 ++ outs2 ++ outs3) -> In (d, s) out -> forall e, In e (concat chosen) -> s <> join (snd e).
Proof.
  intros shuffle n es input Hsh Hv Hi. destruct (filter_ok shuffle n es input Hsh Hv Hi) as (chosen & rest & filtered & Hc & Ep & Ef & Ho & Hi' & Hv'). exists chosen, rest.
  split; [exact Hc|]. split; [exact Ho|]. intros c Hne W D Hs Hd Hp H0. destruct (C37_preprocessed_partial py2 rest filtered c (Hv' Hne) Hi' W D Hs Hd Hp H0) as (t & E & H).
  exists t. split; [unfold filter_and_preprocess; rewrite Ep; cbn zeta; rewrite Ef; cbn [bind]; rewrite E; reflexivity|].
  intros tail heap sort fuel junk fresh rs H1 H2 H3 Hf Hq Hr1 Hr2. destruct (H tail heap sort fuel junk fresh rs H1 H2 H3 Hf Hq) as (A & B & C).
  destruct (A Hr1) as (file1 & E1 & O1), (B Hr2) as (file2 & E2 & O2), (C Hr2) as (file3 & E3 & O3). exists file1, file2, file3. split; [exact E1|]. split; [exact E2|]. split; [exact E3|].
  intros old1 old2 old3. destruct (O1 old1) as (outs1 & S1 & F1), (O2 old2) as (outs2 & S2 & F2), (O3 old3) as (outs3 & S3 & F3). exists outs1, outs2, outs3.
  split; [exact S1|]. split; [exact S2|]. split; [exact S3|]. intros d s out Hout Hin.
  assert (G : exists r, @completes py2 rest r out).
  { assert (L : forall rs outs, Forall2 (@completes py2 rest) rs outs -> In out outs -> exists r, @completes py2 rest r out).
    { clear. induction 1 as [|r o rs outs Hr HF IH]; intros Hi; [destruct Hi|]. destruct Hi as [<-|Hi]; eauto. }
    apply in_app_or in Hout as [Hout|Hout]; [exact (L _ _ F1 Hout)|]. apply in_app_or in Hout as [Hout|Hout]; [exact (L _ _ F2 Hout)|exact (L _ _ F3 Hout)]. }
  destruct G as (r & Hr). exact (proj2 (C47_never_suggested n es chosen rest r out Hv Hc Ho Hr d s Hin)).
Qed.

(** Python 3: filter_dataset.py fails (there is no module sets). *)
Theorem C47_python3_refuted : forall shuffle n input, @filter_and_preprocess py3 shuffle n input = Exn.
Proof. reflexivity. Qed.

Definition all_filter := (C47_held_out, C47_queries, C47_never_suggested, C47_served_partial, C47_python3_refuted).
Print Assumptions all_filter.

(** One completion per length; the shuffle reverses. *)
Example C47_nonvacuous :
  let shuffle := fun (_ : nat) (l : list (list N)) => rev l in
  let es := [(3, [bytes "a"; bytes "b"]); (0, [bytes "a"; bytes "bc"]); (7, [bytes "b"]); (1, [bytes "b"; bytes "de"]); (2, [bytes "bc"; bytes "a"; bytes "de"]); (5, [bytes "c"])] in
  let input := T_Input.lines ["3 a b"; "0 a bc"; "7 b"; "1 b de"; "2 bc a de"; "5 c"]%string in
  let chosen := [[(5, [bytes "c"])]; [(1, [bytes "b"; bytes "de"])]; [(2, [bytes "bc"; bytes "a"; bytes "de"])]; []; []; []; []] in
  let rest := [(3, [bytes "a"; bytes "b"]); (0, [bytes "a"; bytes "bc"]); (7, [bytes "b"])] in
  (forall i l, Permutation (shuffle i l) l) /\ @valid_input py2 es /\ @is_input py2 es input /\ chooses 1 es chosen /\ others es chosen rest /\ rest <> [] /\
  (do (files, t) <- @filter_and_preprocess py2 shuffle 1 input; Ok (files, t_mapped t)) =
    Ok (T_Input.lines ["c"]%string :: T_Input.lines ["b de"]%string :: T_Input.lines ["bc a de"]%string :: repeat [] 4, T_Input.lines ["3 1 2 0"; "0 1 3 0"; "7 2 0"]%string).
Proof.
  cbv zeta. split; [intros i l; apply Permutation_sym, Permutation_rev|]. split; [|split; [|split; [|split; [|split; [discriminate|vm_compute; reflexivity]]]]].
  - constructor.
    + discriminate.
    + repeat (apply Forall_cons || apply Forall_nil); (split; [cbn; lia|]); (split; [|vm_compute; lia]);
        repeat (apply Forall_cons || apply Forall_nil); (apply is_wordb_ok; [discriminate|vm_compute; reflexivity]).
    + repeat split; apply P_PrepDict.str_ltb_spec; vm_compute; reflexivity.
    + repeat constructor; cbn; lia.
    + repeat constructor.
    + vm_compute. reflexivity.
    + exists [bytes "a"; bytes "b"; bytes "bc"; bytes "de"; bytes "c"]. split; [vm_compute; reflexivity|]. intros w (e & He & Hw). cbn in He. repeat (destruct He as [<-|He]; [cbn in Hw |- *; tauto|]). destruct He.
  - exists (map bytes ["3"; "0"; "7"; "1"; "2"; "5"]%string). split; [apply numeralsb_ok; vm_compute; reflexivity|].
    apply (tab_line _ (bytes "3 a b") [10%N]); [apply rowb_ok; vm_compute; reflexivity|now left|].
    apply (tab_line _ (bytes "0 a bc") [10%N]); [apply rowb_ok; vm_compute; reflexivity|now left|].
    apply (tab_line _ (bytes "7 b") [10%N]); [apply rowb_ok; vm_compute; reflexivity|now left|].
    apply (tab_line _ (bytes "1 b de") [10%N]); [apply rowb_ok; vm_compute; reflexivity|now left|].
    apply (tab_line _ (bytes "2 bc a de") [10%N]); [apply rowb_ok; vm_compute; reflexivity|now left|].
    apply (tab_line _ (bytes "5 c") [10%N] [] []); [apply rowb_ok; vm_compute; reflexivity|now left|constructor].
  - constructor.
    + reflexivity.
    + intros i e He. do 7 (destruct i as [|i]; [cbn in He; intuition (subst; vm_compute; auto 10)|]). destruct i; destruct He.
    + intros i. do 7 (destruct i as [|i]; [cbn; repeat constructor; cbn; tauto|]). destruct i; constructor.
    + intros i Hi. do 7 (destruct i as [|i]; [vm_compute; reflexivity|]). lia.
  - intros e. cbn. split.
    + intros [<-|[<-|[<-|[]]]]; (split; [tauto|]); intros H; intuition discriminate.
    + intros (H & Hn). intuition.
Qed.
