(** C53: the space an index reports is the size of its file, and the statistics printed about it are accurate. *)
From Coq Require Import String ZArith.
From Verif Require Import Base M_Fc M_EfSeq M_Bits M_Darray S_Collection M_Auto M_Auto1 M_Input S_Text S_Files S_Blocked M_Stored M_Save S_Save M_Bytes S_Stats P_Bytes P_Stats.
From Verif Require Import T_Auto1 T_Input T_Build T_End T_Save.
Local Open Scope nat_scope.

(** build.cpp: print_stats of the index just built; the file is what save writes afterwards. *)
Theorem C53_type1 : forall c d fresh, wf_collection c -> ac1_build_d (files_of c) = Ok d ->
  exists lines, print_stats1 d = Ok lines /\ accurate_stats c (length (save_file (visit_index1 fresh) d)) lines.
Proof. intros c d fresh Hwf. exact (stats1 c Hwf fresh d). Qed.

Theorem C53_type2 : forall c d, wf_collection c -> ac2_build_d (files_of c) = Ok d ->
  accurate_stats c (length (save_file visit_index2 d)) (print_stats2 d).
Proof. intros c d Hwf. exact (stats2 c Hwf d). Qed.

Theorem C53_type3 : forall c d, wf_collection c -> ac3_build_d (files_of c) = Ok d ->
  accurate_stats c (length (save_file visit_index3 d)) (print_stats3 d).
Proof. intros c d Hwf. exact (stats3 c Hwf d). Qed.

Theorem C53_type4 : forall c m d, wf_collection c -> ac4_build_d m (files_of c) = Ok d ->
  accurate_stats c (length (save_file visit_index4 d)) (print_stats4 d).
Proof. intros c m d Hwf. exact (stats4 c Hwf m d). Qed.

(** statistics.cpp: another process loads the file that the build tool has written and prints the same. *)
Theorem C53_program1 : forall c t fuel junk fresh file, wf_collection c -> small_dict c -> holds_collection c t -> length (t_mapped t) < fuel ->
  build_tool ac1_build_d (visit_index1 fresh) true fuel junk t = Ok file ->
  forall old, exists d lines, load_file (visit_index1 fresh) old file = Ok d /\ print_stats1 d = Ok lines /\ accurate_stats c (length file) lines.
Proof.
  intros c t fuel junk fresh file Hwf Hd Ht Hf. unfold build_tool, from_files. rewrite (C44_files c t _ fuel junk Hwf Ht Hf). cbn [bind].
  destruct (ac1_build_d (files_of c)) as [d| | |] eqn:Ed; try discriminate. cbn [bind]. intros E old. injection E as <-.
  destruct (C45_type1_partial c d fresh Hwf Hd Ed) as (L & _). specialize (L old []). rewrite app_nil_r in L.
  destruct (C53_type1 c d fresh Hwf Ed) as (lines & E1 & E2). eauto.
Qed.

Theorem C53_program2 : forall c t fuel junk file, wf_collection c -> small_dict c -> holds_collection c t -> length (t_mapped t) < fuel ->
  build_tool ac2_build_d visit_index2 false fuel junk t = Ok file ->
  forall old, exists d, load_file visit_index2 old file = Ok d /\ accurate_stats c (length file) (print_stats2 d).
Proof.
  intros c t fuel junk file Hwf Hd Ht Hf. unfold build_tool, from_files. rewrite (C44_files c t _ fuel junk Hwf Ht Hf). cbn [bind].
  destruct (ac2_build_d (files_of c)) as [d| | |] eqn:Ed; try discriminate. cbn [bind]. intros E old. injection E as <-.
  destruct (C45_type2_partial c d Hwf Hd Ed) as (L & _). specialize (L old []). rewrite app_nil_r in L. exists d. split; [exact L|exact (C53_type2 _ _ Hwf Ed)].
Qed.

Theorem C53_program3 : forall c t fuel junk file, wf_collection c -> small_dict c -> holds_collection c t -> length (t_mapped t) < fuel ->
  build_tool ac3_build_d visit_index3 false fuel junk t = Ok file ->
  forall old, exists d, load_file visit_index3 old file = Ok d /\ accurate_stats c (length file) (print_stats3 d).
Proof.
  intros c t fuel junk file Hwf Hd Ht Hf. unfold build_tool, from_files. rewrite (C44_files c t _ fuel junk Hwf Ht Hf). cbn [bind].
  destruct (ac3_build_d (files_of c)) as [d| | |] eqn:Ed; try discriminate. cbn [bind]. intros E old. injection E as <-.
  destruct (C45_type3_partial c d Hwf Hd Ed) as (L & _). specialize (L old []). rewrite app_nil_r in L. exists d. split; [exact L|exact (C53_type3 _ _ Hwf Ed)].
Qed.

Theorem C53_program4 : forall c m t fuel junk file, wf_collection c -> small_dict c -> few_postings c -> holds_collection c t -> length (t_mapped t) < fuel ->
  build_tool (ac4_build_d m) visit_index4 false fuel junk t = Ok file ->
  forall old, exists d, load_file visit_index4 old file = Ok d /\ accurate_stats c (length file) (print_stats4 d).
Proof.
  intros c m t fuel junk file Hwf Hd Hfew Ht Hf. unfold build_tool, from_files. rewrite (C44_files c t _ fuel junk Hwf Ht Hf). cbn [bind].
  destruct (ac4_build_d m (files_of c)) as [d| | |] eqn:Ed; try discriminate. cbn [bind]. intros E old. injection E as <-.
  destruct (C45_type4_partial c m d Hwf Hd Hfew Ed) as (L & _). specialize (L old []). rewrite app_nil_r in L. exists d. split; [exact L|exact (C53_type4 c m d Hwf Ed)].
Qed.

Definition all_bytes := (C53_type1, C53_type2, C53_type3, C53_type4, C53_program1, C53_program2, C53_program3, C53_program4).
Print Assumptions all_bytes.

(** On [coll_ex]: the statistics of the type-1 index, and the length of its file. *)
Example C53_nonvacuous :
  let fresh := {| ef_l := 5; ef_high := {| v_size := 0; v_words := [] |}; ef_d1 := {| d_n := 0; d_blocks := []; d_subs := []; d_over := [] |};
                  ef_low := {| v_size := 0; v_words := [] |}; ef_size := 9 |} in
  (do d <- ac1_build_d (files_of coll_ex); do lines <- print_stats1 d; Ok (length (save_file (visit_index1 fresh) d), lines)) = Ok (2214,
    [Using 2214 6; Part "completions" 1409 2214 6; PerString "nodes" 372 6; PerString "pointers" 281 6;
     PerString "left extremes" 380 6; PerString "sizes" 372 6; Part "unsorted docs list" 162 2214 6;
     Part "unsorted minimal docs list" 162 2214 6; Part "dictionary" 195 2214 6; PerString "data" 155 4;
     PerString "pointers" 32 4; Part "inverted index" 139 2214 6; PerInteger "data" 24 11; PerInteger "pointers" 99 11;
     Part "forward index" 147 2214 6; Average 11 6; PerInteger "data" 40 11; PerInteger "pointers" 91 11])%string.
Proof. vm_compute. reflexivity. Qed.
