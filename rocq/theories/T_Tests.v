(** The test programs of the project for the dictionaries and the trie, run on the files of a collection (C65). *)
From Coq Require Import String.
From Verif Require Import Base S_Order S_Vocab S_Collection S_Text S_Files S_Containers S_Save S_Json P_ListContainers.
From Verif Require Import M_Heap S_Heap P_Heap M_Iter S_Intersect M_Fc M_IntFc M_Trie M_CompactEf M_Real M_Input M_EfSeq M_Save M_Stored M_Tests P_Real T_Auto1 T_Input T_Real T_Save P_Tests.
Local Open Scope nat_scope.
Local Open Scope list_scope.

(** C65: on the files of every well-formed collection the test programs of the dictionaries and of the trie (build, save, load into any object, check every
    term or completion and every non-empty prefix) should pass. Test_fc_dictionary passes exactly when the number of terms is no multiple of 17 (F23) and the first
    term has a single character: otherwise a proper prefix of the first term is not found (F1) and a check fails. *)
Theorem C65_fc_dictionary_partial : forall c t old fuel,
  wf_collection c -> small_dict c -> holds_collection c t -> length (t_dict t) < fuel ->
  exists b, test_fc old fuel t = Ok b /\ (b = true <-> not_multiple_of_17 (length (terms c)) /\ length (nth 0 (terms c) []) = 1).
Proof. exact (fun c t old fuel Hwf Hd Ht => test_fc_ok c Hwf Hd t Ht old fuel). Qed.
Theorem C65_first_term_refuted : forall c t old fuel,
  wf_collection c -> small_dict c -> holds_collection c t -> length (t_dict t) < fuel -> 2 <= length (nth 0 (terms c) []) -> test_fc old fuel t = Ok false.
Proof.
  intros c t old fuel Hwf Hd Ht Hf H2. destruct (test_fc_ok c Hwf Hd t Ht old fuel Hf) as ([] & E & Hb); [|exact E].
  destruct Hb as [Hb _]. destruct (Hb eq_refl) as [_ H1]. lia.
Qed.

(** Test_integer_fc_dictionary passes when the number of completions is no multiple of 17, and reads outside the dictionary otherwise (F23). *)
Theorem C65_integer_dictionary_partial : forall c t old fuel junk,
  wf_collection c -> holds_collection c t -> length (t_mapped t) < fuel -> not_multiple_of_17 (length (comps c)) -> test_ifc old fuel junk t = Ok true.
Proof.
  intros c t old fuel junk Hwf Ht Hf H17. rewrite (test_ifc_ok c Hwf t Ht old fuel junk Hf).
  destruct (Nat.eqb_spec (length (comps c) mod (BUCKET + 1)) 0) as [E|_]; [destruct (H17 E)|reflexivity].
Qed.
Theorem C65_integer_dictionary_refuted : forall c t old fuel junk,
  wf_collection c -> holds_collection c t -> length (t_mapped t) < fuel -> ~ not_multiple_of_17 (length (comps c)) -> test_ifc old fuel junk t = UB.
Proof.
  intros c t old fuel junk Hwf Ht Hf H17. rewrite (test_ifc_ok c Hwf t Ht old fuel junk Hf).
  destruct (Nat.eqb_spec (length (comps c) mod (BUCKET + 1)) 0) as [_|E]; [reflexivity|destruct (H17 E)].
Qed.

(** Test_completion_trie always passes. *)
Lemma sort_ce_ok : sorts_by_size ce_ops sort_ce. Proof. exact (proj1 (proj2 C01_C08_bits_nonvacuous)). Qed.
Theorem C65_trie : forall c t fresh old fuel junk,
  wf_collection c -> holds_collection c t -> length (t_mapped t) < fuel -> test_trie fresh old fuel junk t = Ok true.
Proof. exact (fun c t fresh old fuel junk Hwf Ht => test_trie_ok c Hwf t Ht sort_ce fresh old fuel junk sort_ce_ok). Qed.

Definition all_tests := (C65_fc_dictionary_partial, C65_first_term_refuted, C65_integer_dictionary_partial, C65_integer_dictionary_refuted, C65_trie).
Print Assumptions all_tests.

(** The files of [coll_ex]: all three tests pass, with any object loaded into. *)
Definition fcd0 : fcd := {| fc_size := 0; fc_ph := []; fc_pb := []; fc_hdrs := []; fc_bkts := [] |}.
Example C65_nonvacuous :
  wf_collection coll_ex /\ small_dict coll_ex /\ holds_collection coll_ex texts_ex /\ length (t_dict texts_ex) < 200 /\ length (t_mapped texts_ex) < 200 /\
  not_multiple_of_17 (length (terms coll_ex)) /\ length (nth 0 (terms coll_ex) []) = 1 /\ not_multiple_of_17 (length (comps coll_ex)) /\
  test_fc fcd0 200 texts_ex = Ok true /\ test_ifc fcd0 200 7 texts_ex = Ok true.
Proof.
  destruct C44_nonvacuous as (H1 & H2 & _). split; [exact H1|]. split; [exact small_dict_ex|]. split; [exact H2|].
  split; [vm_compute; lia|]. split; [vm_compute; lia|]. split; [vm_compute; lia|]. split; [reflexivity|]. split; [vm_compute; lia|].
  split; vm_compute; reflexivity.
Qed.

(** A first term with two characters: the test of the dictionary fails. *)
Definition coll_ab : collection := {| terms := map bytes ["ab"; "b"]%string; comps := [[1]; [2]]%N; docs := [0; 1]; universe := 2 |}.
Definition texts_ab : texts := {|
  t_stats := T_Input.lines ["2"; "3"; "2"; "2"; "2"; "2"; "2"]%string; t_dict := T_Input.lines ["ab"; "b"]%string; t_mapped := T_Input.lines ["0 1 0"; "1 2 0"]%string;
  t_inverted := T_Input.lines ["1 0"; "1 1"]%string; t_forward := T_Input.lines ["1 1"; "1 2"]%string |}.
Example C65_first_term_nonvacuous :
  wf_collection coll_ab /\ small_dict coll_ab /\ holds_collection coll_ab texts_ab /\ 2 <= length (nth 0 (terms coll_ab) []) /\ test_fc fcd0 200 texts_ab = Ok false.
Proof.
  split; [apply wf_collectionb_ok; reflexivity|]. split; [split; [repeat constructor|reflexivity]|]. split; [constructor|].
  - exists 3%N, [2; 2]%N. split; [lia|]. split; [reflexivity|]. split; [repeat constructor|]. one_numbers ["2"; "3"; "2"; "2"; "2"; "2"; "2"]%string.
  - apply (layoutb_ok 200). vm_compute. reflexivity.
  - one_numbers ["0"; "1"; "0"; "1"; "2"; "0"]%string.
  - one_numbers ["1"; "0"; "1"; "1"]%string.
  - one_numbers ["1"; "1"; "1"; "2"]%string.
  - split; [cbn; lia|vm_compute; reflexivity].
Qed.

(** Seventeen terms of one letter and seventeen completions: the test of the terms fails and that of the completions reads behind the buckets. *)
Definition coll_17 : collection := {| terms := map (fun x => [x]) (map N.of_nat (seq 97 17)); comps := map (fun x => [x]) (map N.of_nat (seq 1 17)); docs := seq 0 17; universe := 17 |}.
Definition texts_17 : texts := {|
  t_stats := T_Input.lines ["17"; "2"; "17"; "17"; "2"; "17"; "17"]%string;
  t_dict := T_Input.lines ["a"; "b"; "c"; "d"; "e"; "f"; "g"; "h"; "i"; "j"; "k"; "l"; "m"; "n"; "o"; "p"; "q"]%string;
  t_mapped := T_Input.lines ["0 1 0"; "1 2 0"; "2 3 0"; "3 4 0"; "4 5 0"; "5 6 0"; "6 7 0"; "7 8 0"; "8 9 0"; "9 10 0"; "10 11 0"; "11 12 0"; "12 13 0"; "13 14 0"; "14 15 0"; "15 16 0"; "16 17 0"]%string;
  t_inverted := T_Input.lines ["1 0"; "1 1"; "1 2"; "1 3"; "1 4"; "1 5"; "1 6"; "1 7"; "1 8"; "1 9"; "1 10"; "1 11"; "1 12"; "1 13"; "1 14"; "1 15"; "1 16"]%string;
  t_forward := T_Input.lines ["1 1"; "1 2"; "1 3"; "1 4"; "1 5"; "1 6"; "1 7"; "1 8"; "1 9"; "1 10"; "1 11"; "1 12"; "1 13"; "1 14"; "1 15"; "1 16"; "1 17"]%string |}.
Example C65_17_nonvacuous :
  wf_collection coll_17 /\ small_dict coll_17 /\ holds_collection coll_17 texts_17 /\ ~ not_multiple_of_17 (length (comps coll_17)) /\
  test_fc fcd0 200 texts_17 = Ok false /\ test_ifc fcd0 200 7 texts_17 = UB.
Proof.
  assert (H1 : wf_collection coll_17) by (apply wf_collectionb_ok; reflexivity). assert (H2 : small_dict coll_17) by (split; [repeat constructor|reflexivity]).
  assert (H3 : holds_collection coll_17 texts_17).
  { constructor.
  - exists 2%N, [17; 17]%N. split; [lia|]. split; [reflexivity|]. split; [repeat constructor|]. one_numbers ["17"; "2"; "17"; "17"; "2"; "17"; "17"]%string.
  - apply (layoutb_ok 300). vm_compute. reflexivity.
  - one_numbers ["0"; "1"; "0"; "1"; "2"; "0"; "2"; "3"; "0"; "3"; "4"; "0"; "4"; "5"; "0"; "5"; "6"; "0"; "6"; "7"; "0"; "7"; "8"; "0"; "8"; "9"; "0"; "9"; "10"; "0"; "10"; "11"; "0"; "11"; "12"; "0"; "12"; "13"; "0"; "13"; "14"; "0"; "14"; "15"; "0"; "15"; "16"; "0"; "16"; "17"; "0"]%string.
  - one_numbers ["1"; "0"; "1"; "1"; "1"; "2"; "1"; "3"; "1"; "4"; "1"; "5"; "1"; "6"; "1"; "7"; "1"; "8"; "1"; "9"; "1"; "10"; "1"; "11"; "1"; "12"; "1"; "13"; "1"; "14"; "1"; "15"; "1"; "16"]%string.
  - one_numbers ["1"; "1"; "1"; "2"; "1"; "3"; "1"; "4"; "1"; "5"; "1"; "6"; "1"; "7"; "1"; "8"; "1"; "9"; "1"; "10"; "1"; "11"; "1"; "12"; "1"; "13"; "1"; "14"; "1"; "15"; "1"; "16"; "1"; "17"]%string. }
  assert (H17 : ~ not_multiple_of_17 (length (comps coll_17))) by (intros H; apply H; reflexivity).
  split; [exact H1|]. split; [exact H2|]. split; [exact H3|]. split; [exact H17|]. split.
  - destruct (C65_fc_dictionary_partial coll_17 texts_17 fcd0 200 H1 H2 H3) as ([] & E & Hb); [vm_compute; lia| |exact E]. destruct (proj1 Hb eq_refl) as [H _]. destruct H. reflexivity.
  - apply (C65_integer_dictionary_refuted coll_17); auto. vm_compute. lia.
Qed.
