(** C55: an index file that was not written to its end (the build tool was stopped, or the disk was full) is not served. *)
From Coq Require Import String ZArith.
From Verif Require Import Base S_Order S_Collection M_Heap M_Containers M_Auto M_Auto1 S_Index M_Auto2 S_Index2 M_Blocked S_Blocked S_Build.
From Verif Require Import M_Text M_Input S_Text S_Files M_Word M_Bits P_Bits M_Cvec M_Darray M_EfSeq M_Fc M_CompactEf M_Real P_Real P_ListContainers P_Heap P_BlockFinal.
From Verif Require Import M_Stored M_Save P_Save P_Stored P_Fit3 S_Save S_Cut P_Cut S_Json.
From Verif Require Import T_Auto1 T_Auto2 T_Auto4 T_Web T_Real T_Input T_Build T_End T_Save.
Local Open Scope nat_scope.

(** Full statement: for every number of bytes smaller than the length of the file, loading ends with an error. Missing: it never does.
    What it does instead, for every index that can be built and every number of bytes: *)
Theorem C55_type1_partial : forall c d fresh old, wf_collection c -> small_dict c -> ac1_build_d (files_of c) = Ok d ->
  words (cv_bits (wd_data (d1_fwd old))) ->
  cut_file (visit_index1 fresh) old d (fun d => wd_data (d1_fwd d)) (fun got => set_d1_fwd d (set_wd_data (d1_fwd d) (cvec_with (wd_data (d1_fwd d)) got))).
Proof.
  intros c d fresh old Hwf Hd E Ho. pose proof (index1_fit c Hwf Hd d E) as F. destruct (index1_last fresh d F) as (k & L).
  exact (last_file _ _ old d _ _ k (index1_good fresh) F L Ho).
Qed.
Theorem C55_type2_partial : forall c d old, wf_collection c -> small_dict c -> ac2_build_d (files_of c) = Ok d ->
  words (cv_bits (d2_lexid old)) -> cut_file visit_index2 old d d2_lexid (fun got => set_d2_lexid d (cvec_with (d2_lexid d) got)).
Proof.
  intros c d old Hwf Hd E Ho. pose proof (index2_fit c Hwf Hd d E) as F. destruct (index2_last d F) as (k & L). exact (last_file _ _ old d _ _ k index2_good F L Ho).
Qed.
Theorem C55_type3_partial : forall c d old, wf_collection c -> small_dict c -> ac3_build_d (files_of c) = Ok d ->
  words (cv_bits (d3_lexid old)) -> cut_file visit_index3 old d d3_lexid (fun got => set_d3_lexid d (cvec_with (d3_lexid d) got)).
Proof.
  intros c d old Hwf Hd E Ho. pose proof (index3_fit c Hwf Hd d E) as F. destruct (index3_last d F) as (k & L). exact (last_file _ _ old d _ _ k index3_good F L Ho).
Qed.
Theorem C55_type4_partial : forall c m d old, wf_collection c -> small_dict c -> few_postings c -> ac4_build_d m (files_of c) = Ok d ->
  words (cv_bits (d4_lexid old)) -> cut_file visit_index4 old d d4_lexid (fun got => set_d4_lexid d (cvec_with (d4_lexid d) got)).
Proof.
  intros c m d old Hwf Hd Hf E Ho. pose proof (index4_fit c Hwf Hd m d Hf E) as F. destruct (index4_last d F) as (k & L). exact (last_file _ _ old d _ _ k index4_good F L Ho).
Qed.

(** In particular the program that loads an incomplete file is never told so. *)
Lemma cut_no_error {A} (c : codec A) old x vec_of replaced : cut_file c old x vec_of replaced -> forall n, load_file c old (firstn n (save_file c x)) <> Exn.
Proof.
  intros H n E. destruct (H n) as (H1 & H2 & H3). cbn zeta in H1, H2, H3. rewrite E in H1, H2, H3.
  destruct (Nat.lt_ge_cases n (length (save_file c x))) as [L|L]; [|discriminate (H3 L)].
  destruct (Nat.lt_ge_cases n (length (save_file c x) - 8 * length (cv_bits (vec_of x)))) as [L'|L']; [discriminate (H1 L')|].
  destruct (H2 (conj L' L)) as (got & E' & _). discriminate E'.
Qed.
Theorem C55_no_error_refuted : forall c n, wf_collection c -> small_dict c ->
  (forall d fresh old, ac1_build_d (files_of c) = Ok d -> words (cv_bits (wd_data (d1_fwd old))) -> load_file (visit_index1 fresh) old (firstn n (save_file (visit_index1 fresh) d)) <> Exn) /\
  (forall d old, ac2_build_d (files_of c) = Ok d -> words (cv_bits (d2_lexid old)) -> load_file visit_index2 old (firstn n (save_file visit_index2 d)) <> Exn) /\
  (forall d old, ac3_build_d (files_of c) = Ok d -> words (cv_bits (d3_lexid old)) -> load_file visit_index3 old (firstn n (save_file visit_index3 d)) <> Exn) /\
  (forall m d old, few_postings c -> ac4_build_d m (files_of c) = Ok d -> words (cv_bits (d4_lexid old)) -> load_file visit_index4 old (firstn n (save_file visit_index4 d)) <> Exn).
Proof.
  intros c n Hwf Hd. split; [|split; [|split]].
  - intros d fresh old E Ho. exact (cut_no_error _ _ _ _ _ (C55_type1_partial c d fresh old Hwf Hd E Ho) n).
  - intros d old E Ho. exact (cut_no_error _ _ _ _ _ (C55_type2_partial c d old Hwf Hd E Ho) n).
  - intros d old E Ho. exact (cut_no_error _ _ _ _ _ (C55_type3_partial c d old Hwf Hd E Ho) n).
  - intros m d old Hf E Ho. exact (cut_no_error _ _ _ _ _ (C55_type4_partial c m d old Hwf Hd Hf E Ho) n).
Qed.

(** A file of which the last 8 bytes are missing, loaded into a new object: the answers are wrong, and no error is reported. *)
Definition new_cvec : cvec := {| cv_size := 0; cv_width := 0; cv_mask := 0%N; cv_bits := [] |}.
Definition new_efs : efs := {| ef_l := 5; ef_high := {| v_size := 0; v_words := [] |}; ef_d1 := {| d_n := 0; d_blocks := []; d_subs := []; d_over := [] |};
  ef_low := {| v_size := 0; v_words := [] |}; ef_size := 9 |}.
Definition without (k : nat) (file : list N) : list N := firstn (length file - k) file.
Theorem C55_silent_refuted :
  let rs := [conj10 (bytes "a b")] in
  (do file <- build_tool ac1_build_d (visit_index1 new_efs) true 200 7%N texts_ex; do old <- ac1_build_d (files_of coll_ex);
   let serve := fun f => serve1 0 sorting_heap sort_ce new_efs 200 (set_d1_fwd old (set_wd_data (d1_fwd old) new_cvec)) f rs in
   do out <- serve file; do out' <- serve (without 8 file); Ok (out, out')) =
  Ok ([[(0, bytes "a bc"); (2, bytes "bc a de"); (3, bytes "a b")]], [[]]) /\
  (do file <- build_tool ac2_build_d visit_index2 false 200 7%N texts_ex; do old <- ac2_build_d (files_of coll_ex);
   let serve := fun f => serve2 0 sorting_heap sort_ce 200 (set_d2_lexid old new_cvec) f rs in
   do out <- serve file; do out' <- serve (without 8 file); Ok (out, out')) =
  Ok ([[(0, bytes "a bc"); (2, bytes "bc a de"); (3, bytes "a b")]], [[(0, bytes "a b"); (2, bytes "a b"); (3, bytes "a b")]]) /\
  (do file <- build_tool ac3_build_d visit_index3 false 200 7%N texts_ex; do old <- ac3_build_d (files_of coll_ex);
   let serve := fun f => serve3 0 sorting_heap sort_ce 200 (set_d3_lexid old new_cvec) f rs in
   do out <- serve file; do out' <- serve (without 8 file); Ok (out, out')) =
  Ok ([[(0, bytes "a bc"); (2, bytes "bc a de"); (3, bytes "a b")]], [[(0, bytes "a b"); (2, bytes "a b"); (3, bytes "a b")]]) /\
  (do file <- build_tool (ac4_build_d 1) visit_index4 false 200 7%N texts_ex; do old <- ac4_build_d 1 (files_of coll_ex);
   let serve := fun f => serve4 0 sorting_heap sort_ce sort_b 200 (set_d4_lexid old new_cvec) f [conj10 (bytes "b")] in
   do out <- serve file; do out' <- serve (without 8 file); Ok (out, out')) =
  Ok ([[(1, bytes "b de"); (3, bytes "a b"); (7, bytes "b")]], [[(1, bytes "a b"); (3, bytes "a b"); (7, bytes "a b")]]).
Proof. split; [|split; [|split]]; vm_compute; reflexivity. Qed.

Definition all_cut := (C55_type1_partial, C55_type2_partial, C55_type3_partial, C55_type4_partial, C55_no_error_refuted, C55_silent_refuted).
Print Assumptions all_cut.

(** The hypotheses are met: an index of each type can be built from [coll_ex], and its last vector is not empty, so that there are
    files of both kinds. A new object has no words at all. *)
Example C55_nonvacuous :
  wf_collection coll_ex /\ small_dict coll_ex /\ few_postings coll_ex /\ words (cv_bits new_cvec) /\
  (do d <- ac1_build_d (files_of coll_ex); Ok (length (save_file (visit_index1 new_efs) d), length (cv_bits (wd_data (d1_fwd d))))) = Ok (2214, 1) /\
  (do d <- ac2_build_d (files_of coll_ex); Ok (length (save_file visit_index2 d), length (cv_bits (d2_lexid d)))) = Ok (1072, 1) /\
  (do d <- ac3_build_d (files_of coll_ex); Ok (length (save_file visit_index3 d), length (cv_bits (d3_lexid d)))) = Ok (910, 1) /\
  (do d <- ac4_build_d 1 (files_of coll_ex); Ok (length (save_file visit_index4 d), length (cv_bits (d4_lexid d)))) = Ok (1236, 1).
Proof.
  split; [apply C43_exact_nonvacuous|]. split; [exact small_dict_ex|]. split; [apply C43_exact_nonvacuous|]. split; [constructor|].
  split; [|split; [|split]]; vm_compute; reflexivity.
Qed.
