(** The test programs of the project for the inverted and the forward index, run on the files of a collection (C67). *)
From Coq Require Import String.
From Verif Require Import Base S_Order S_Vocab S_Collection S_Text S_Files S_Containers S_Save S_Json S_Intersect P_ListContainers.
From Verif Require Import M_Heap S_Heap P_Heap M_Iter M_CompactEf M_Real M_Input M_Bits M_Cvec M_Darray M_EfSeq M_Save M_Stored M_Tests M_TestIndex.
From Verif Require Import T_Auto1 T_Input T_Real T_Save T_Tests P_TestIndex.
Local Open Scope nat_scope.
Local Open Scope list_scope.

(** C67: on the files of every well-formed collection the test of the posting lists passes, whatever the object loaded into held before. *)
Theorem C67_lists : forall c t tail old junk,
  wf_collection c -> holds_collection c t -> (tail < 2 ^ 64)%N -> test_inv tail old junk t = Ok true.
Proof. exact (fun c t tail old junk Hwf Ht Htail => test_inv_ok c Hwf t Ht tail Htail old junk). Qed.

(** So does the test of the intersections, whatever queries the random generator gives: all it takes is that every query has at least two terms and that its
    term identifiers are between 1 and the number of terms. Each loop of the intersection ends after at most (documents + 1) * (terms + 1) steps. *)
Theorem C67_intersections : forall c t tail sort fuel queries old junk,
  wf_collection c -> holds_collection c t -> (tail < 2 ^ 64)%N -> sorts_by_size ce_ops sort ->
  (forall q, In q (queries (length (terms c))) -> 2 <= length q /\ Forall (fun x => 1 <= x <= length (terms c)) q /\ (universe c + 1) * (length q + 1) < fuel) ->
  test_inter tail sort fuel queries old junk t = Ok true.
Proof.
  intros c t tail sort fuel queries old junk Hwf Ht Htail Hsort Hq. apply (test_inter_ok c Hwf t Ht tail Htail sort fuel queries old junk Hsort).
  intros q Hin. destruct (Hq q Hin) as (H1 & H2 & H3). split; [split|]; assumption.
Qed.

(** The test of the forward index passes when there are at least as many documents as terms. Otherwise it would have to check only the documents there are;
    but it counts to the number of terms (F48). *)
Theorem C67_forward_partial : forall c t tail old junk,
  wf_collection c -> holds_collection c t -> (tail < 2 ^ 64)%N -> length (terms c) <= universe c -> test_fwd tail old junk t = Ok true.
Proof. exact (fun c t tail old junk Hwf Ht Htail => test_fwd_ok c Hwf t Ht tail Htail (@sorting_heap) sort_ce old junk (@sorting_heap_ok) sort_ce_ok). Qed.

(** One completion with three terms: the test reads behind the pointers. *)
Definition coll_abc : collection := {| terms := map bytes ["a"; "b"; "c"]%string; comps := [[1; 2; 3]]%N; docs := [0]; universe := 1 |}.
Definition texts_abc : texts := {|
  t_stats := T_Input.lines ["3"; "2"; "1"; "1"; "4"; "1"; "1"; "1"; "1"]%string; t_dict := T_Input.lines ["a"; "b"; "c"]%string; t_mapped := T_Input.lines ["0 1 2 3 0"]%string;
  t_inverted := T_Input.lines ["1 0"; "1 0"; "1 0"]%string; t_forward := T_Input.lines ["3 1 2 3"]%string |}.
Definition old_fwd : res fwd_d := fwd_build_d 1 [[1%N]].
Theorem C67_forward_refuted : exists c t tail junk,
  wf_collection c /\ holds_collection c t /\ (tail < 2 ^ 64)%N /\ (do old <- old_fwd; test_fwd tail old junk t) = UB.
Proof.
  exists coll_abc, texts_abc, 0%N, 0%N. split; [apply wf_collectionb_ok; reflexivity|]. split; [constructor|split; [reflexivity|vm_compute; reflexivity]].
  - exists 2%N, [1; 1; 1; 1]%N. split; [lia|]. split; [reflexivity|]. split; [repeat constructor|]. one_numbers ["3"; "2"; "1"; "1"; "4"; "1"; "1"; "1"; "1"]%string.
  - apply (layoutb_ok 200). vm_compute. reflexivity.
  - one_numbers ["0"; "1"; "2"; "3"; "0"]%string.
  - one_numbers ["1"; "0"; "1"; "0"; "1"; "0"]%string.
  - one_numbers ["3"; "1"; "2"; "3"]%string.
Qed.

Definition all_index_tests := (C67_lists, C67_intersections, C67_forward_partial, C67_forward_refuted).
Print Assumptions all_index_tests.

(** The files of [coll_ex]. *)
Definition old_inv : res inv_d := inv_build_d 3 [[0; 2]; [1]].
Definition queries_ex (n : nat) : list (list nat) := [[1; 2]; [2; n]; [1; 3; n]].
Example C67_nonvacuous :
  wf_collection coll_ex /\ holds_collection coll_ex texts_ex /\ length (terms coll_ex) <= universe coll_ex /\
  (forall q, In q (queries_ex (length (terms coll_ex))) -> 2 <= length q /\ Forall (fun x => 1 <= x <= length (terms coll_ex)) q /\ (universe coll_ex + 1) * (length q + 1) < 100) /\
  (do old <- old_inv; test_inv 0 old 7 texts_ex) = Ok true /\ (do old <- old_inv; test_inter 0 sort_ce 100 queries_ex old 7 texts_ex) = Ok true /\
  (do old <- old_fwd; test_fwd 0 old 7 texts_ex) = Ok true.
Proof.
  destruct C44_nonvacuous as (H1 & H2 & _). split; [exact H1|]. split; [exact H2|]. split; [cbn; lia|].
  split; [|repeat split; vm_compute; reflexivity].
  intros q [<-|[<-|[<-|[]]]]; cbn; repeat split; repeat constructor; lia.
Qed.
