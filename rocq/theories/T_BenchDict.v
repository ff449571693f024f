(** C62, C63, C64: the benchmark programs of the dictionaries. *)
From Coq Require Import String Permutation.
From Verif Require Import Base S_Order S_Parse S_Text S_Vocab S_Completions S_Trie S_Collection S_Files S_Containers S_Json S_Tools S_BenchDict.
From Verif Require Import M_Fc M_IntFc M_Auto M_Auto1 M_Real M_Input M_Tools M_Bench M_BenchDict P_BenchDict T_Auto1 T_Input T_Tools P_Heap P_ListContainers T_Real.
Local Open Scope nat_scope.

(** ** The dictionaries behind their last string *)
(** extract for any number greater than that of the last string stored: undefined behaviour (C09 and C14 for the numbers they exclude). *)
Theorem C62_extract_behind_refuted : forall (B : bucket_size) terms d id out base, wf_vocab terms -> fc_build terms = Ok d -> length (stored terms) < id ->
  base + 256 <= length out -> fc_extract d id out base = UB.
Proof. intros B. exact (@fc_extract_behind B). Qed.
Theorem C63_extract_behind_refuted : forall (B : bucket_size) cs d i out, wf_completions cs -> ifc_build (map terminated cs) = Ok d -> length (stored cs) <= i ->
  128 <= length out -> ifc_extract d i out = UB.
Proof. intros B. exact (@ifc_extract_behind B). Qed.

(** ** C62: benchmark_fc_dictionary *)
(** For every collection and every layout of its files: if each of the first [n] lines of the input is a term that every one of the seven dictionaries stores, the program
    finds its number in each run, extracts it with its length, and finds the range of the terms that start with a quarter, a half ... of it. *)
Theorem C62_fc_partial : forall c t n ls input, wf_collection c -> holds_collection c t -> has_lines ls input ->
  (forall B, In B bench_sizes -> forall q, In q (firstn n ls) -> In q (@stored B _ (terms c))) ->
  exists os, bench_fc n t input = Ok os /\ Forall2 (fun B o => @measured B (terms c) (firstn n ls) o) bench_sizes os.
Proof. intros c t n ls input Hwf Ht. exact (bench_fc_ok c Hwf t Ht n ls input). Qed.
(** Otherwise: undefined behaviour (F44). *)
Theorem C62_unknown_refuted : forall c t n ls input B q, wf_collection c -> holds_collection c t -> has_lines ls input -> In B bench_sizes -> In q (firstn n ls) ->
  ~ In q (@stored B _ (terms c)) -> bench_fc n t input = UB.
Proof. intros c t n ls input B q Hwf Ht. exact (bench_fc_UB c Hwf t Ht n ls input B q). Qed.

(** ** C63: benchmark_integer_fc_dictionary *)
(** As many completions as the program is asked for: in any order, each of five runs extracts each with its length. *)
Theorem C63_ifc_partial : forall c t shuffle fuel n junk, wf_collection c -> holds_collection c t -> length (t_mapped t) < fuel ->
  Permutation (shuffle (seq 0 n)) (seq 0 n) -> (forall B, In B bench_sizes -> n <= length (@stored B _ (comps c))) ->
  exists os, bench_ifc shuffle fuel n junk t = Ok os /\ length os = 7 /\
    Forall (five_runs (fun i l => exists x, nth_error (comps c) i = Some x /\ l = length x) (shuffle (seq 0 n))) os.
Proof. intros c t shuffle fuel n junk Hwf Ht Hf Hp Hn. destruct (bench_ifc_ok c Hwf t Ht shuffle fuel n junk Hf Hp Hn) as (os & E & H1 & H2). eauto. Qed.
(** More than one of the dictionaries stores: undefined behaviour (F44). *)
Theorem C63_many_refuted : forall c t shuffle fuel n junk B, wf_collection c -> holds_collection c t -> length (t_mapped t) < fuel ->
  Permutation (shuffle (seq 0 n)) (seq 0 n) -> In B bench_sizes -> length (@stored B _ (comps c)) < n -> bench_ifc shuffle fuel n junk t = UB.
Proof. intros c t shuffle fuel n junk B Hwf Ht. exact (bench_ifc_UB c Hwf t Ht shuffle fuel n junk B). Qed.

(** ** C64: benchmark_locate_prefix *)
(** With the trie: for every query the five runs find exactly the completions that have the numbers of its tokens and then a number in the range looked up. *)
Theorem C64_trie_partial : forall K c t fuel n m e junk ls input, containers_ok K -> wf_collection c -> holds_collection c t -> (m <= 2 ^ e)%N -> has_lines ls input ->
  Forall (fun q => q <> [] /\ (N.of_nat (length q) + 2 < 16777216)%N) (firstn n ls) -> length (t_mapped t) < fuel ->
  exists strings runs, Forall2 (shortened m e) (firstn n ls) strings /\ bench_prefix K true fuel n m e junk t input = Ok runs /\
    five_runs (fun q r => exists prefix a b, asks (terms c) q prefix a b /\ found_in_trie (comps c) prefix a b r) strings runs.
Proof. intros K c t fuel n m e junk ls input HK Hwf Ht. exact (bench_prefix_trie c Hwf t Ht K HK fuel n m e junk ls input). Qed.
(** With the integer dictionary: the same search as long as it finds something. *)
Theorem C64_dict_partial : forall K c t fuel n m e junk ls input, wf_collection c -> holds_collection c t -> (m <= 2 ^ e)%N -> has_lines ls input ->
  Forall (fun q => q <> [] /\ (N.of_nat (length q) + 2 < 16777216)%N) (firstn n ls) -> length (t_mapped t) < fuel ->
  exists strings runs, Forall2 (shortened m e) (firstn n ls) strings /\ bench_prefix K false fuel n m e junk t input = Ok runs /\
    length runs = 5 /\ Forall (fun run => length run = length strings) runs /\
    forall j q, nth_error strings j = Some q -> exists prefix a b, asks (terms c) q prefix a b /\ searches (found_in_dict (comps c)) a b prefix (column j runs).
Proof. intros K c t fuel n m e junk ls input Hwf Ht. exact (bench_prefix_fc c Hwf t Ht K fuel n m e junk ls input). Qed.

Print Assumptions C62_extract_behind_refuted.
Print Assumptions C63_extract_behind_refuted.
Print Assumptions C62_fc_partial.
Print Assumptions C62_unknown_refuted.
Print Assumptions C63_ifc_partial.
Print Assumptions C63_many_refuted.
Print Assumptions C64_trie_partial.
Print Assumptions C64_dict_partial.

(** The files of [coll_ex]; the third query is not read. *)
Definition fc_queries_ex : list string := ["de"; "bc"; "xyz"]%string.
Lemma all_stored (B : bucket_size) {A} (l : list A) : In B bench_sizes -> length l = 4 \/ length l = 6 -> @stored B _ l = l.
Proof. intros HB Hl. unfold stored. cbn in HB. repeat (destruct HB as [<-|HB]; [destruct Hl as [-> | ->]; reflexivity|]). destruct HB. Qed.
Example C62_nonvacuous :
  wf_collection coll_ex /\ holds_collection coll_ex texts_ex /\ has_lines (map bytes fc_queries_ex) (T_Input.lines fc_queries_ex) /\
  (forall B, In B bench_sizes -> forall q, In q (firstn 2 (map bytes fc_queries_ex)) -> In q (@stored B _ (terms coll_ex))) /\
  (do os <- bench_fc 2 texts_ex (T_Input.lines fc_queries_ex); Ok (length os, map fp_locate (firstn 1 os), map fp_extract (firstn 1 os), map fp_prefix (firstn 1 os))) =
    Ok (7, [repeat [Some 4; Some 3] 5], [repeat [2; 2] 5], [[repeat [0; 1] 5; repeat [0; 1] 5; repeat [0; 1] 5; repeat [0; 1] 5; repeat [0; 0] 5]]) /\
  bench_fc 3 texts_ex (T_Input.lines fc_queries_ex) = UB.
Proof.
  destruct C44_nonvacuous as (H1 & H2 & _). split; [exact H1|]. split; [exact H2|]. assert (Hl : has_lines (map bytes fc_queries_ex) (T_Input.lines fc_queries_ex)) by (apply lines_has; reflexivity).
  split; [exact Hl|]. split; [|split].
  - intros B HB q Hq. rewrite (all_stored B _ HB) by (left; reflexivity). destruct Hq as [<-|[<-|Hq]]; [cbn; auto|cbn; auto|destruct Hq].
  - vm_compute. reflexivity.
  - apply (C62_unknown_refuted coll_ex texts_ex 3 (map bytes fc_queries_ex) _ (hd default_bucket bench_sizes) (bytes "xyz") H1 H2 Hl); [now left|right; right; now left|].
    rewrite all_stored; [|now left|left; reflexivity]. cbn. intros H. repeat (destruct H as [H|H]; [discriminate|]). exact H.
Qed.
Example C63_nonvacuous :
  length (t_mapped texts_ex) < 200 /\ Permutation (@rev nat (seq 0 4)) (seq 0 4) /\ (forall B, In B bench_sizes -> 4 <= length (@stored B _ (comps coll_ex))) /\
  bench_ifc (@rev nat) 200 4 7%N texts_ex = Ok (repeat (repeat [2; 1; 2; 2] 5) 7) /\ bench_ifc (@rev nat) 200 7 7%N texts_ex = UB.
Proof.
  destruct C44_nonvacuous as (H1 & H2 & _). assert (Hf : length (t_mapped texts_ex) < 200) by (vm_compute; lia). split; [exact Hf|]. split; [symmetry; apply Permutation_rev|]. split; [|split].
  - intros B HB. rewrite (all_stored B _ HB) by (right; reflexivity). cbn. lia.
  - vm_compute. reflexivity.
  - apply (C63_many_refuted coll_ex texts_ex (@rev nat) 200 7 7%N (hd default_bucket bench_sizes) H1 H2 Hf); [symmetry; apply Permutation_rev|now left|].
    rewrite all_stored; [|now left|right; reflexivity]. cbn. lia.
Qed.

(** Terms a, b, bc, de. The query "bc" is answered with the completions that start with "b" (2 and 3, not 4), "b" with those that start with "a" or "b" (F45: the positions of
    the terms are not turned into their numbers), "a " with those that have no term or one of the first three after "a". *)
Definition prefix_queries_ex : list string := ["bc"; "b"; "a "; "xyz"; "a b"]%string.
Example C64_nonvacuous :
  let K := real_containers 0 sorting_heap sort_ce in
  has_lines (map bytes prefix_queries_ex) (T_Input.lines prefix_queries_ex) /\
  Forall (fun q => q <> [] /\ (N.of_nat (length q) + 2 < 16777216)%N) (firstn 5 (map bytes prefix_queries_ex)) /\
  bench_prefix K true 200 5 1 0 7 texts_ex (T_Input.lines prefix_queries_ex) = Ok (repeat [Some (2, 4); Some (0, 4); Some (0, 2); None; Some (0, 1)] 5) /\
  bench_prefix K false 200 5 1 0 7 texts_ex (T_Input.lines prefix_queries_ex) = Ok (repeat [Some (2, 4); Some (1, 4); Some (1, 2); None; None] 5).
Proof.
  cbv zeta. split; [apply lines_has; reflexivity|]. split; [repeat (apply Forall_cons; [split; [discriminate|reflexivity]|]); constructor|]. split; vm_compute; reflexivity.
Qed.

(** Terms a, b; completions "a a" and "b". The query "b" searches for "a": the first completion is not found (F2), but from the second run on the program searches for "a a". *)
Definition coll_aa : collection := {| terms := map bytes ["a"; "b"]%string; comps := [[1; 1]; [2]]%N; docs := [0; 1]; universe := 2 |}.
Definition texts_aa : texts := {|
  t_stats := T_Input.lines ["2"; "3"; "2"; "2"; "3"; "2"; "2"; "1"]%string; t_dict := T_Input.lines ["a"; "b"]%string; t_mapped := T_Input.lines ["0 1 1 0"; "1 2 0"]%string;
  t_inverted := T_Input.lines ["1 0"; "1 1"]%string; t_forward := T_Input.lines ["2 1 1"; "1 2"]%string |}.
Example C64_runs_refuted :
  wf_collection coll_aa /\ holds_collection coll_aa texts_aa /\
  bench_prefix (real_containers 0 sorting_heap sort_ce) false 200 1 1 0 7 texts_aa (T_Input.lines ["b"]%string) = Ok ([None] :: repeat [Some (0, 1)] 4).
Proof.
  split; [apply wf_collectionb_ok; reflexivity|]. split; [constructor|].
  - exists 3%N, [2; 2; 1]%N. split; [lia|]. split; [reflexivity|]. split; [repeat constructor|]. one_numbers ["2"; "3"; "2"; "2"; "3"; "2"; "2"; "1"]%string.
  - apply (layoutb_ok 200). vm_compute. reflexivity.
  - one_numbers ["0"; "1"; "1"; "0"; "1"; "2"; "0"]%string.
  - one_numbers ["1"; "0"; "1"; "1"]%string.
  - one_numbers ["2"; "1"; "1"; "1"; "2"]%string.
  - vm_compute. reflexivity.
Qed.

(** What the search should be: the completions that start with the numbers of the tokens and a number of a term found. *)
Example C64_numbers_refuted : exists r, nth_error (comps coll_ex) 4 = Some [3; 1; 4]%N /\ nth_error (terms coll_ex) 2 = Some (bytes "bc") /\
  bench_prefix (real_containers 0 sorting_heap sort_ce) true 200 1 1 0 7 texts_ex (T_Input.lines ["bc"]%string) = Ok (repeat [Some r] 5) /\ ~ (fst r <= 4 < snd r).
Proof. exists (2, 4). split; [reflexivity|]. split; [reflexivity|]. split; [vm_compute; reflexivity|]. cbn. lia. Qed.
