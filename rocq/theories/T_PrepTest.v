(** C70 from the input text: preprocess.sh, then the test of locate_prefix. *)
From Coq Require Import Permutation String.
From Verif Require Import Base S_Python S_Order S_Vocab S_Parse S_Collection S_Text S_Files S_Json S_Prep S_Filter S_TestPrefix S_PrepTest.
From Verif Require Import M_Input M_Prep M_Filter M_TestPrefix M_PrepTest P_Prep P_PrepDict P_PrepEnd P_Filter P_PrepTest P_ListContainers T_Auto1 T_Input T_Prep T_Filter T_TestPrefix.
Local Open Scope nat_scope.
Local Open Scope list_scope.

(** For both Pythons and whatever random.shuffle does: the test passes on the files preprocess.sh makes of any valid input in the usual layout, if the first completion is the first
    word and has one byte (F1, F2), and the numbers of words and completions are not multiples of 17 (F23). Since the test ends at the file queries.length=7, these are the rounds of
    C70_seven_refuted (F52). *)
Theorem C70_preprocessed_partial : forall (py : python) shuffle n es input c fuel junk,
  (forall i l, Permutation (shuffle i l) l) -> valid_input es -> usual_input es input -> starts_short es -> wf_collection c -> describes es c -> sizes_ok2 c ->
  exists t, preprocess input = Ok t /\
    (length (t_mapped t) < fuel -> test_prefix fuel junk t (encode input) (named (partition_queries shuffle n input)) = Ok true).
Proof.
  intros py shuffle n es input c fuel junk Hsh Hv Hu Hs W D H17. pose proof (usual_is_input es input Hv Hu) as Hi.
  destruct (preprocess_ok es input Hv Hi) as (t & c' & E & W' & D' & Ht & _). assert (c' = c) as -> by exact (describes_unique es c' c W' W D' D).
  exists t. split; [exact E|]. intros Hf. destruct (C47_queries py shuffle n es input Hsh Hv Hi) as (chosen & Hc & ->). rewrite encode_encoded.
  destruct (short_first es c Hv D W Hs) as (H1 & H0).
  apply (C70_completions c t fuel junk (encoded input) (chosen_lines chosen)); auto.
  - exact (described_plain es c Hv D).
  - exact (usual_collection_file es c Hv D input Hu).
  - exact (chosen_files es Hv n chosen max_num_queries Hc).
  - intros i ls q Hl Hq. exact (chosen_completions es c D n chosen i ls q Hc Hl Hq).
Qed.

Ltac valid_entries V := constructor;
  [discriminate
  |repeat (apply Forall_cons || apply Forall_nil); (split; [cbn; lia|]); (split; [|vm_compute; lia]);
     repeat (apply Forall_cons || apply Forall_nil); (apply is_wordb_ok; [discriminate|vm_compute; reflexivity])
  |repeat split; apply P_PrepDict.str_ltb_spec; vm_compute; reflexivity
  |repeat constructor; cbn; lia
  |repeat constructor
  |vm_compute; reflexivity
  |exists V; split; [vm_compute; reflexivity|]; intros w (e & He & Hw); cbn in He; repeat (destruct He as [<-|He]; [cbn in Hw |- *; tauto|]); destruct He].
Ltac described := constructor;
  [split; [repeat split; apply P_PrepDict.str_ltb_spec; vm_compute; reflexivity|]|reflexivity|reflexivity|reflexivity].

(** Completions "a", "a b", "b", "bc a": all hypotheses hold. *)
Definition keep (_ : nat) (l : list (list N)) : list (list N) := l.
Lemma keep_perm i l : Permutation (keep i l) l.
Proof. apply Permutation_refl. Qed.
Definition es_p : entries := [(2, [bytes "a"%string]); (0, [bytes "a"%string; bytes "b"%string]); (1, [bytes "b"%string]); (3, [bytes "bc"%string; bytes "a"%string])].
Example C70_preprocessed_nonvacuous :
  (forall i l, Permutation (keep i l) l) /\ @valid_input py3 es_p /\ @usual_input py3 es_p file_p /\ @starts_short py3 es_p /\ wf_collection coll_p /\ @describes py3 es_p coll_p /\ sizes_ok2 coll_p /\
  (do t <- @preprocess py3 file_p; test_prefix 200 7 t (@encode py3 file_p) (@named py3 (@partition_queries py3 keep 10 file_p))) = Ok true /\
  @partition_queries py3 keep 10 file_p = [T_Input.lines ["a"; "b"]%string; T_Input.lines ["a b"; "bc a"]%string; []; []; []; []; []].
Proof.
  split; [exact keep_perm|]. split; [valid_entries (map bytes ["a"; "b"; "bc"]%string)|]. split; [|split; [|split; [exact (proj1 coll_p_ok)|split; [|split; [split; vm_compute; lia|]]]]].
  - exists (map bytes ["2"; "0"; "1"; "3"]%string). split; [apply numeralsb_ok; vm_compute; reflexivity|reflexivity].
  - exists 2, (bytes "a"%string), (tl es_p). split; [reflexivity|]. split; [reflexivity|]. intros v (e & He & Hv). cbn in He.
    repeat (destruct He as [<-|He]; [cbn in Hv; repeat (destruct Hv as [<-|Hv]; [first [now left|right; apply P_PrepDict.str_ltb_spec; vm_compute; reflexivity]|]); destruct Hv|]). destruct He.
  - described. intros w. split.
    + intros H. cbn in H. destruct H as [<-|[<-|[<-|[]]]]; [exists (bytes "a"%string)|exists (bytes "b"%string)|exists (bytes "bc"%string)]; (split; [|reflexivity]); [exists (nth 0 es_p (0, []))|exists (nth 2 es_p (0, []))|exists (nth 3 es_p (0, []))]; (split; [apply nth_In; cbn; lia|now left]).
    + intros (v & (e & He & Hv) & ->). cbn in He. repeat (destruct He as [<-|He]; [cbn in Hv; repeat (destruct Hv as [<-|Hv]; [cbn; tauto|]); destruct Hv|]). destruct He.
  - split; vm_compute; reflexivity.
Qed.

(** Without the hypothesis on the first completion it is false: the input "0 abc", "1 b" is valid, and the test fails on the files made of it when "abc" is cut to its start (F1). *)
Definition es_q : entries := [(0, [bytes "abc"%string]); (1, [bytes "b"%string])].
Definition input_q : list N := T_Input.lines ["0 abc"; "1 b"]%string.
Theorem C70_preprocessed_refuted :
  @valid_input py3 es_q /\ @usual_input py3 es_q input_q /\ wf_collection coll_q /\ @describes py3 es_q coll_q /\ sizes_ok2 coll_q /\ (forall i l, Permutation (keep i l) l) /\
  (do t <- @preprocess py3 input_q; test_prefix 200 7 t (@encode py3 input_q) (@named py3 (@partition_queries py3 keep 10 input_q))) = Ok false.
Proof.
  split; [valid_entries (map bytes ["abc"; "b"]%string)|]. split; [|split; [exact (proj1 C70_first_term_refuted)|split; [|split; [split; vm_compute; lia|split; [exact keep_perm|vm_compute; reflexivity]]]]].
  - exists (map bytes ["0"; "1"]%string). split; [apply numeralsb_ok; vm_compute; reflexivity|reflexivity].
  - described. intros w. split.
    + intros H. cbn in H. destruct H as [<-|[<-|[]]]; [exists (bytes "abc"%string)|exists (bytes "b"%string)]; (split; [|reflexivity]); [exists (nth 0 es_q (0, []))|exists (nth 1 es_q (0, []))]; (split; [apply nth_In; cbn; lia|now left]).
    + intros (v & (e & He & Hv) & ->). cbn in He. repeat (destruct He as [<-|He]; [cbn in Hv; repeat (destruct Hv as [<-|Hv]; [cbn; tauto|]); destruct Hv|]). destruct He.
Qed.

Definition all_prep_test := (C70_preprocessed_partial, C70_preprocessed_refuted).
Print Assumptions all_prep_test.
