(** C82: index files that are incomplete, or longer than they should be. *)
From Coq Require Import Permutation String ZArith.
From Verif Require Import Base S_Order S_Vocab S_Parse M_Heap S_Heap M_Containers S_Containers M_Auto M_Auto1 S_Collection S_Index M_Auto2 M_Blocked S_Blocked S_Build.
From Verif Require Import M_Bits M_Cvec M_Darray M_EfSeq M_Rs M_Bp M_Fc M_Real S_Json M_Stored M_Save S_Save S_Crash P_Crash P_Heap P_ListContainers M_Text M_Input S_Text S_Files.
From Verif Require Import T_Auto1 T_Real T_Input T_End T_Save.
Local Open Scope nat_scope.

(** Whatever follows behind a complete index, for example the rest of a longer file that was overwritten: the index is loaded. *)
Theorem C82_longer : forall c rest, wf_collection c -> small_dict c ->
  (forall d fresh old, ac1_build_d (files_of c) = Ok d -> load_file (visit_index1 fresh) old (save_file (visit_index1 fresh) d ++ rest) = Ok d) /\
  (forall d old, ac2_build_d (files_of c) = Ok d -> load_file visit_index2 old (save_file visit_index2 d ++ rest) = Ok d) /\
  (forall d old, ac3_build_d (files_of c) = Ok d -> load_file visit_index3 old (save_file visit_index3 d ++ rest) = Ok d) /\
  (forall d m old, few_postings c -> ac4_build_d m (files_of c) = Ok d -> load_file visit_index4 old (save_file visit_index4 d ++ rest) = Ok d).
Proof.
  intros c rest Hwf Hd. split; [|split; [|split]].
  - intros d fresh old E. exact (proj1 (C45_type1_partial c d fresh Hwf Hd E) old rest).
  - intros d old E. exact (proj1 (C45_type2_partial c d Hwf Hd E) old rest).
  - intros d old E. exact (proj1 (C45_type3_partial c d Hwf Hd E) old rest).
  - intros d m old Hf E. exact (proj1 (C45_type4_partial c m d Hwf Hd Hf E) old rest).
Qed.
(** No file at all is reported as damaged: neither one that an interrupted build has left, nor one of another kind. *)
Theorem C82_unreported :
  (forall fresh old, accepts_all (load_file (visit_index1 fresh) old)) /\ (forall old, accepts_all (load_file visit_index2 old)) /\
  (forall old, accepts_all (load_file visit_index3 old)) /\ (forall old, accepts_all (load_file visit_index4 old)).
Proof.
  split; [|split; [|split]]; intros; apply quiet_accepts.
  - apply index1_quiet.
  - apply index2_quiet.
  - apply index3_quiet.
  - apply index4_quiet.
Qed.
Definition all_files_accepted := (C82_longer, C82_unreported).
Print Assumptions all_files_accepted.

(** Objects as a program has them before loading. *)
Definition bv0 : bv := {| v_size := 0; v_words := [] |}.
Definition ef0 : efs := {| ef_l := 0; ef_high := bv0; ef_d1 := {| d_n := 0; d_blocks := []; d_subs := []; d_over := [] |}; ef_low := bv0; ef_size := 0 |}.
Definition cv0 : cvec := {| cv_size := 0; cv_width := 0; cv_mask := 0%N; cv_bits := [] |}.
Definition ul0 : ulist_d :=
  {| ud_rmq := {| bp_rs := {| rs_bv := bv0; rs_pairs := []; rs_hints := []; rs_hints0 := [] |}; bp_internal := 0; bp_block_min := []; bp_tree := [] |}; ud_list := cv0 |}.
Definition fc0 : fcd := {| fc_size := 0; fc_ph := []; fc_pb := []; fc_hdrs := []; fc_bkts := [] |}.
Definition iv0 : inv_d := {| vd_integers := 0; vd_docs := 0; vd_ptrs := ef0; vd_data := bv0 |}.
Definition new1 : index1_d :=
  {| d1_comps := {| td_size := 0; td_nodes := []; td_ptrs := []; td_left := []; td_sizes := [] |}; d1_docs := ul0; d1_min := ul0; d1_dict := fc0; d1_inv := iv0;
     d1_fwd := {| wd_integers := 0; wd_terms := 0; wd_ptrs := ef0; wd_data := cv0 |} |}.
Definition new2 : index2_d := {| d2_comps := fc0; d2_docs := ul0; d2_min := ul0; d2_dict := fc0; d2_inv := iv0; d2_lexid := cv0 |}.
Definition new3 : index3_d := {| d3_comps := fc0; d3_docs := ul0; d3_dict := fc0; d3_inv := iv0; d3_lexid := cv0 |}.

(** The file without its last 8 bytes: the index of type 1 finds nothing although "a b" matches, those of type 2 and 3 report "a b" for
    every result. *)
Definition cut_short {A} (b : res (list N)) (serve : list N -> res A) : res A := do f <- b; serve (firstn (length f - 8) f).
Theorem C82_wrong_refuted :
  let r := {| rq_conj := true; rq_k := 10; rq_text := bytes "b a" |} in
  let p := {| rq_conj := false; rq_k := 10; rq_text := bytes "b" |} in
  wf_collection coll_ex /\ small_dict coll_ex /\ holds_collection coll_ex texts_ex /\
  (forall f, 8 < length f -> interrupted f (firstn (length f - 8) f)) /\
  (do f <- build_tool ac1_build_d (visit_index1 ef0) true 200 7%N texts_ex; serve1 0 sorting_heap sort_ce ef0 200 new1 f [r]) = Ok [[(3, bytes "a b")]] /\
  cut_short (build_tool ac1_build_d (visit_index1 ef0) true 200 7%N texts_ex) (fun f => serve1 0 sorting_heap sort_ce ef0 200 new1 f [r]) = Ok [[]] /\
  (do f <- build_tool ac2_build_d visit_index2 false 200 7%N texts_ex; serve2 0 sorting_heap sort_ce 200 new2 f [p]) =
    Ok [[(1, bytes "b de"); (2, bytes "bc a de"); (7, bytes "b")]] /\
  cut_short (build_tool ac2_build_d visit_index2 false 200 7%N texts_ex) (fun f => serve2 0 sorting_heap sort_ce 200 new2 f [p]) =
    Ok [[(1, bytes "a b"); (2, bytes "a b"); (7, bytes "a b")]] /\
  cut_short (build_tool ac3_build_d visit_index3 false 200 7%N texts_ex) (fun f => serve3 0 sorting_heap sort_ce 200 new3 f [p]) =
    Ok [[(1, bytes "a b"); (2, bytes "a b"); (7, bytes "a b")]].
Proof.
  cbv zeta. split; [apply wf_collectionb_ok; reflexivity|]. split; [exact small_dict_ex|]. split; [exact (proj1 (proj2 C44_nonvacuous))|].
  split; [intros f Hf; exists (length f - 8); split; [lia|reflexivity]|].
  repeat (split; [vm_compute; reflexivity|]). vm_compute. reflexivity.
Qed.
Print Assumptions C82_wrong_refuted.

(** A complete file with three more bytes. *)
Example C82_nonvacuous :
  let r := {| rq_conj := true; rq_k := 10; rq_text := bytes "b a" |} in
  (do f <- build_tool ac1_build_d (visit_index1 ef0) true 200 7%N texts_ex; serve1 0 sorting_heap sort_ce ef0 200 new1 (f ++ [1; 2; 3]%N) [r]) = Ok [[(3, bytes "a b")]].
Proof. vm_compute. reflexivity. Qed.
