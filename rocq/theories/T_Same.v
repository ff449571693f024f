(** C87: builds are reproducible. *)
From Coq Require Import Permutation String Sorted.
From Verif Require Import Base S_Order S_Vocab S_Parse M_Containers S_Containers M_Auto M_Auto1 S_Collection S_Index M_Auto2 S_Index2 M_Blocked S_Blocked S_Build.
From Verif Require Import M_Text M_Input S_Text S_Files M_Bits M_Cvec M_Darray M_EfSeq M_Real M_Stored M_Save S_Save T_Auto1 T_Input T_Build T_End T_Save.
From Verif Require Import S_Python S_Prep M_Prep P_PrepText P_PrepEnd T_Prep.
Local Open Scope nat_scope.

(** Any files of the same collection (their layout, the numbers that only reserve memory), any contents of uninitialised memory
    ([junk], [fresh]): the same index file, or the same failure, for every type. *)
Theorem C87_files : forall c t t' fuel fuel' junk junk', wf_collection c -> holds_collection c t -> holds_collection c t' ->
  length (t_mapped t) < fuel -> length (t_mapped t') < fuel' ->
  (forall fresh fresh', build_tool ac1_build_d (visit_index1 fresh) true fuel junk t = build_tool ac1_build_d (visit_index1 fresh') true fuel' junk' t') /\
  build_tool ac2_build_d visit_index2 false fuel junk t = build_tool ac2_build_d visit_index2 false fuel' junk' t' /\
  build_tool ac3_build_d visit_index3 false fuel junk t = build_tool ac3_build_d visit_index3 false fuel' junk' t' /\
  (forall m, build_tool (ac4_build_d m) visit_index4 false fuel junk t = build_tool (ac4_build_d m) visit_index4 false fuel' junk' t').
Proof.
  intros c t t' fuel fuel' junk junk' W H H' Hf Hf'. unfold build_tool, from_files.
  split; [intros fresh fresh'|split; [|split; [|intros m]]]; rewrite (C44_files c t _ fuel junk W H Hf), (C44_files c t' _ fuel' junk' W H' Hf'); reflexivity.
Qed.
(** From the input text: any two layouts of the same completions. *)
Theorem C87_input : forall (py : python) es input input', valid_input es -> is_input es input -> is_input es input' ->
  exists t t', preprocess input = Ok t /\ preprocess input' = Ok t' /\
  forall fuel fuel' junk junk', length (t_mapped t) < fuel -> length (t_mapped t') < fuel' ->
  (forall fresh fresh', build_tool ac1_build_d (visit_index1 fresh) true fuel junk t = build_tool ac1_build_d (visit_index1 fresh') true fuel' junk' t') /\
  build_tool ac2_build_d visit_index2 false fuel junk t = build_tool ac2_build_d visit_index2 false fuel' junk' t' /\
  build_tool ac3_build_d visit_index3 false fuel junk t = build_tool ac3_build_d visit_index3 false fuel' junk' t' /\
  (forall m, build_tool (ac4_build_d m) visit_index4 false fuel junk t = build_tool (ac4_build_d m) visit_index4 false fuel' junk' t').
Proof.
  intros py es input input' Hv Hi Hi'. destruct (preprocess_ok es input Hv Hi) as (t & c & E & W & D & H & _). destruct (preprocess_ok es input' Hv Hi') as (t' & c' & E' & W' & D' & H' & _).
  assert (c' = c) as -> by exact (describes_unique es c' c W' W D' D). exists t, t'. split; [exact E|]. split; [exact E'|].
  intros fuel fuel' junk junk' Hf Hf'. exact (C87_files c t t' fuel fuel' junk junk' W H H' Hf Hf').
Qed.
Definition all_reproducible := (C87_files, C87_input).
Print Assumptions all_reproducible.

(** The files of [coll_ex] in another layout, with other numbers that only reserve memory. *)
Definition texts_other : texts := {|
  t_stats := T_Input.lines ["4 77"; "6 8"; "4 5"; "9 1"; "1"]%string;
  t_dict := T_Input.lines ["a b"; ""; " bc  de"]%string;
  t_mapped := T_Input.lines ["3 1 2 0 0 1 3 0"; "7 2 0 1 2"; "4 0"; "2 3 1 4 0 5 4 0"]%string;
  t_inverted := T_Input.lines ["3 0 2 3 3 1 3 7 2 0 2 3 1 2 5"]%string;
  t_forward := T_Input.lines ["2 1 3"; "2 2 4"; "3 3 1 4"; "2 1 2"; "0 1 4"; "0 "; "1 2"]%string |}.
Example C87_nonvacuous :
  let fresh := {| ef_l := 0; ef_high := {| v_size := 0; v_words := [] |}; ef_d1 := {| d_n := 0; d_blocks := []; d_subs := []; d_over := [] |};
                  ef_low := {| v_size := 0; v_words := [] |}; ef_size := 0 |} in
  holds_collection coll_ex texts_ex /\ holds_collection coll_ex texts_other /\ t_mapped texts_ex <> t_mapped texts_other /\
  exists file, build_tool ac1_build_d (visit_index1 fresh) true 200 7%N texts_ex = Ok file /\
    build_tool ac1_build_d (visit_index1 fresh) true 300 8%N texts_other = Ok file /\ length file = 2214.
Proof.
  cbv zeta. split; [exact (proj1 (proj2 C44_nonvacuous))|]. split.
  { constructor.
    - exists 77%N, [5; 9; 1; 1]%N. split; [lia|]. split; [reflexivity|]. split; [repeat constructor|]. one_numbers ["4"; "77"; "6"; "8"; "4"; "5"; "9"; "1"; "1"]%string.
    - apply (layoutb_ok 200). vm_compute. reflexivity.
    - one_numbers ["3"; "1"; "2"; "0"; "0"; "1"; "3"; "0"; "7"; "2"; "0"; "1"; "2"; "4"; "0"; "2"; "3"; "1"; "4"; "0"; "5"; "4"; "0"]%string.
    - one_numbers ["3"; "0"; "2"; "3"; "3"; "1"; "3"; "7"; "2"; "0"; "2"; "3"; "1"; "2"; "5"]%string.
    - one_numbers ["2"; "1"; "3"; "2"; "2"; "4"; "3"; "3"; "1"; "4"; "2"; "1"; "2"; "0"; "1"; "4"; "0"; "1"; "2"]%string. }
  split; [vm_compute; discriminate|]. eexists. split; [vm_compute; reflexivity|]. split; vm_compute; reflexivity.
Qed.
