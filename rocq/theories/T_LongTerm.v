(** C46, C09: words of at most 128 characters may have more than 128 bytes. The preprocessing counts characters, the dictionary copies bytes. *)
From Coq Require Import Permutation String Sorted.
From Verif Require Import Base S_Order S_Vocab S_Parse M_Heap S_Heap M_Iter M_Intersect S_Intersect M_Containers S_Containers M_Auto M_Auto1 S_Collection S_Index M_Auto2 S_Index2 M_Blocked S_Blocked S_Build P_Build.
From Verif Require Import M_Text M_Input S_Text S_Files P_Files M_Bits M_Cvec M_Darray M_EfSeq M_Fc M_CompactEf M_Real P_Real P_Auto1 P_Auto23 P_ListContainers P_Blocked P_BlockFinal S_Json M_Web.
From Verif Require Import P_Heap M_Stored M_Save P_Save P_Stored P_Fit3 S_Save T_Auto1 T_Auto2 T_Auto4 T_Web T_Real T_Input T_Build T_End T_Save.
From Verif Require Import S_Python S_Prep M_Prep P_PrepText P_PrepEnd T_Prep.
Local Open Scope nat_scope.

Section Long.
Let here : python := py3.
Existing Instance here.

(** The letter é, [n] times. *)
Definition accents (n : nat) : list N := repeat 233%N n.
Definition es_long (n : nat) : entries := [(1, [bytes "a"]); (2, [bytes "b"]); (0, [accents n])].
Definition input_long (n : nat) : list N := (bytes "1 a" ++ [10%N] ++ bytes "2 b" ++ [10%N] ++ bytes "0 " ++ accents n ++ [10%N])%list.
Definition fresh_long := {| ef_l := 0; ef_high := {| v_size := 0; v_words := [] |}; ef_d1 := {| d_n := 0; d_blocks := []; d_subs := []; d_over := [] |};
                            ef_low := {| v_size := 0; v_words := [] |}; ef_size := 0 |}.
(** preprocess.sh, the build tool, the index file, a process that loads it and answers (index type 1). *)
Definition answers_long (input : list N) (rs : list request) : res (list (list (nat * list N))) :=
  do t <- preprocess input;
  do file <- build_tool ac1_build_d (visit_index1 fresh_long) true 400 7%N t;
  do old <- ac1_build_d (files_of coll_ex);
  serve1 0 sorting_heap sort_ce fresh_long 400 old file rs.

(** With 64 letters (128 bytes) all is well: the input is valid and the completion is reported. *)
Example C46_long_nonvacuous : valid_input (es_long 64) /\
  answers_long (input_long 64) [conj10 [195; 169]%N; conj10 (encoded (accents 64))] = Ok [[(0, encoded (accents 64))]; [(0, encoded (accents 64))]].
Proof.
  split; [|vm_compute; reflexivity]. constructor.
  - discriminate.
  - assert (H : forall e, In e (es_long 64) -> (0 <? length (snd e)) && (length (snd e) <=? 63) && forallb (fun w => match w with [] => false | _ => forallb letterb w end) (snd e) && (length (encoded (concat (snd e))) <=? 128) = true) by (apply forallb_forall; vm_compute; reflexivity).
    apply Forall_forall. intros e He. specialize (H e He). apply andb_prop in H as (H & H4). apply andb_prop in H as (H & H3). apply andb_prop in H as (H1 & H2).
    split; [lia|]. split; [|lia]. apply Forall_forall. intros w Hw. rewrite forallb_forall in H3. specialize (H3 w Hw). destruct w; [discriminate|]. apply is_wordb_ok; [discriminate|exact H3].
  - repeat split; apply P_PrepDict.str_ltb_spec; vm_compute; reflexivity.
  - repeat constructor; cbn; lia.
  - repeat constructor.
  - vm_compute. reflexivity.
  - exists (flat_map snd (es_long 64)). split; [vm_compute; reflexivity|]. intros w (e & He & Hw). apply in_flat_map. eauto.
Qed.

(** F55: the word é…é of 66 letters has 132 bytes. It is accepted at every stage; its suggestion ends in NUL bytes instead of the last two letters,
    and typing the completion out finds nothing. *)
Theorem C46_long_word_refuted :
  is_input (es_long 66) (input_long 66) /\ Forall (fun e => length (concat (snd e)) <= 128) (es_long 66) /\
  answers_long (input_long 66) [conj10 [195; 169]%N; conj10 (encoded (accents 66))] = Ok [[(0, encoded (accents 64) ++ [0; 0; 0; 0]%N)]; []] /\
  ~ completes (es_long 66) (conj10 [195; 169]%N) [(0, encoded (accents 64) ++ [0; 0; 0; 0]%N)] /\
  ~ completes (es_long 66) (conj10 (encoded (accents 66))) [].
Proof.
  split.
  { exists [bytes "1"; bytes "2"; bytes "0"]. split; [apply numeralsb_ok; vm_compute; reflexivity|].
    change (map (fun p => fst p :: snd (snd p)) (combine [bytes "1"; bytes "2"; bytes "0"] (es_long 66))) with
      [[bytes "1"; bytes "a"]; [bytes "2"; bytes "b"]; [bytes "0"; accents 66]].
    apply (tab_line _ (bytes "1 a") [10%N]); [apply rowb_ok; vm_compute; reflexivity|now left|].
    apply (tab_line _ (bytes "2 b") [10%N]); [apply rowb_ok; vm_compute; reflexivity|now left|].
    apply (tab_line _ (bytes "0 " ++ accents 66)%list [10%N] [] []); [apply rowb_ok; vm_compute; reflexivity|now left|constructor]. }
  split; [repeat constructor; vm_compute; lia|].
  split; [vm_compute; reflexivity|]. split.
  - intros (ts & last & _ & _ & _ & H & _). destruct (H 0 _ (or_introl eq_refl)) as (ws & Hi & _ & E).
    destruct Hi as [Hi|[Hi|[Hi|[]]]]; try discriminate Hi. injection Hi as <-. vm_compute in E. discriminate E.
  - intros (ts & last & Hq & _ & _ & _ & H).
    assert (Hq' : query_split (encoded (accents 66)) [] (encoded (accents 66))).
    { exists []. split; [reflexivity|]. split; [|constructor]. vm_compute. repeat constructor; discriminate. }
    destruct (P_Parse.query_split_det _ _ _ _ _ Hq Hq') as (-> & ->).
    destruct (H 0 [accents 66]) as [[]|(H' & _)]; [right; right; now left| |discriminate H'].
    split; [intros t []|]. exists (encoded (accents 66)). split; [now left|]. exists []. now rewrite app_nil_r.
Qed.
Print Assumptions C46_long_word_refuted.

(** 128 letters, 256 bytes: the length is stored as 0 and the completion is never found. With é…é of 66 letters before it, the search writes past the end of a buffer. *)
Theorem C46_long_words_refuted :
  Forall (fun e => length (concat (snd e)) <= 128) (es_long 128) /\
  answers_long (input_long 128) [conj10 [195; 169]%N] = Ok [[]] /\ ~ completes (es_long 128) (conj10 [195; 169]%N) [] /\
  answers_long (input_long 66 ++ bytes "3 " ++ accents 128 ++ [10%N]) [conj10 [195; 169]%N] = UB.
Proof.
  split; [repeat constructor; vm_compute; lia|]. split; [vm_compute; reflexivity|]. split; [|vm_compute; reflexivity].
  intros (ts & last & Hq & _ & _ & _ & H).
  assert (Hq' : query_split [195; 169]%N [] [195; 169]%N) by (exists []; split; [reflexivity|]; split; [repeat constructor; discriminate|constructor]).
  destruct (P_Parse.query_split_det _ _ _ _ _ Hq Hq') as (-> & ->).
  destruct (H 0 [accents 128]) as [[]|(H' & _)]; [right; right; now left| |discriminate H'].
  split; [intros t []|]. exists (encoded (accents 128)). split; [now left|]. exists (encoded (accents 127)). vm_compute. reflexivity.
Qed.
Print Assumptions C46_long_words_refuted.
End Long.
