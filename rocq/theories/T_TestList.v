(** The test program of the project for unsorted_list, run on the files of a collection (C68). *)
From Coq Require Import String.
From Verif Require Import Base S_Order S_Vocab S_Collection S_Text S_Files S_Containers S_Save S_Json S_Intersect S_TopK P_ListContainers.
From Verif Require Import M_Heap S_Heap P_Heap M_Iter M_CompactEf M_Real M_Input M_Bits M_Cvec M_Save M_Stored M_Tests M_TopK M_TestList.
From Verif Require Import T_Auto1 T_Input T_Real T_Save T_Tests P_TestList.
Local Open Scope nat_scope.
Local Open Scope list_scope.

(** The random ranges of the test: any ranges inside the list. *)
Definition ranges_in (n : nat) (rs : list (nat * nat)) : Prop := forall a b, In (a, b) rs -> a <= b <= n.

(** C68: on the files of every collection the test of the doc ids passes, whatever ranges the generator gives, if the list can be built at all (some doc id is
    positive); otherwise building throws (F11). *)
Theorem C68_docs_partial : forall c t tail (heap : forall A, heap_ops A) old queries fuel junk,
  wf_collection c -> holds_collection c t -> (tail < 2 ^ 64)%N -> (forall A, std_heap (heap A)) -> length (t_mapped t) < fuel ->
  ranges_in (length (comps c)) (queries (length (comps c))) ->
  (some_doc_positive c -> test_docs tail (heap scored_range) old queries fuel junk t = Ok true) /\
  (~ some_doc_positive c -> test_docs tail (heap scored_range) old queries fuel junk t = Exn).
Proof.
  intros c t tail heap old queries fuel junk Hwf Ht Htail Hheap Hf Hq. pose proof (wf_docs_len c Hwf) as El.
  apply (test_docs_ok tail heap sort_ce Htail Hheap sort_ce_ok c Hwf t Ht old queries fuel junk Hf). rewrite El. intros [a b] Hr. unfold in_list. cbn [fst snd]. rewrite El. now apply Hq.
Qed.

(** The test of the minimal doc ids asks for distinct values: it passes exactly when each of the random ranges is longer than 10 or has no duplicates (F49). *)
Definition first_docs (c : collection) : list nat := map (fun x => hd 0 (posting_list c x)) (seq 1 (length (terms c))).
Theorem C68_minimal_partial : forall c t tail (heap : forall A, heap_ops A) old queries junk,
  wf_collection c -> holds_collection c t -> (tail < 2 ^ 64)%N -> (forall A, std_heap (heap A)) ->
  ranges_in (length (terms c)) (queries (length (terms c))) ->
  (some_term_not_in_doc0 c -> exists r, test_minimal tail (heap scored_range) old queries junk t = Ok r /\
    (r = true <-> forall a b, In (a, b) (queries (length (terms c))) -> a + 10 < b \/ NoDup (segment (first_docs c) a b))) /\
  (~ some_term_not_in_doc0 c -> test_minimal tail (heap scored_range) old queries junk t = Exn).
Proof.
  intros c t tail heap old queries junk Hwf Ht Htail Hheap Hq.
  assert (Ef : firsts c = first_docs c) by (unfold firsts, first_docs, P_Collection.postings; now rewrite map_map).
  assert (El : length (firsts c) = length (terms c)) by (rewrite Ef; unfold first_docs; now rewrite map_length, seq_length).
  destruct (test_minimal_ok tail heap sort_ce Htail Hheap sort_ce_ok c Hwf t Ht old queries junk) as [H1 H2].
  - rewrite El. intros [a b] Hr. unfold in_list. cbn [fst snd]. rewrite El. now apply Hq.
  - split; [|exact H2]. intros Hs. destruct (H1 Hs) as (r & E & Hr). exists r. split; [exact E|]. rewrite Hr, El, Forall_forall, Ef. split.
    + intros H a b Hin. destruct (H (a, b) Hin) as [H3|H3]; [discriminate|exact H3].
    + intros H [a b] Hin. right. now apply H.
Qed.

(** The ranges of the test are such ranges, for every generator [draw] that keeps to the interval asked for. *)
Theorem C68_ranges : forall St (draw : nat -> nat -> St -> nat * St) num n s,
  (forall lo hi s, lo <= hi -> lo <= fst (draw lo hi s) <= hi) ->
  length (fst (gen_ranges draw num n s)) = num /\ ranges_in n (fst (gen_ranges draw num n s)).
Proof. exact (fun St draw num n s Hd => gen_ranges_ok draw Hd num n s). Qed.
(** And there is no other restriction: every list of ranges inside the list is given by some generator. *)
Theorem C68_any_ranges : forall n rs, ranges_in n rs ->
  exists St (draw : nat -> nat -> St -> nat * St) s,
    (forall lo hi s, lo <= hi -> lo <= fst (draw lo hi s) <= hi) /\ fst (gen_ranges draw (length rs) n s) = rs.
Proof. exact gen_ranges_any. Qed.
(** So the test of the doc ids, with the 5000 ranges it draws, passes for every generator. *)
Theorem C68_drawn_partial : forall c t tail (heap : forall A, heap_ops A) old St (draw : nat -> nat -> St -> nat * St) num s fuel junk,
  wf_collection c -> holds_collection c t -> (tail < 2 ^ 64)%N -> (forall A, std_heap (heap A)) -> length (t_mapped t) < fuel ->
  (forall lo hi s, lo <= hi -> lo <= fst (draw lo hi s) <= hi) -> some_doc_positive c ->
  test_docs tail (heap scored_range) old (fun n => fst (gen_ranges draw num n s)) fuel junk t = Ok true.
Proof.
  intros c t tail heap old St draw num s fuel junk Hwf Ht Htail Hheap Hf Hd Hs.
  now apply (C68_docs_partial c t tail heap old _ fuel junk Hwf Ht Htail Hheap Hf (proj2 (C68_ranges St draw num _ s Hd))).
Qed.
(** The test of the minimal doc ids is not so: with one generator it passes and with another it fails (F49). *)
Definition all_draw (lo hi s : nat) : nat * nat := (if s mod 2 =? 0 then lo else hi, s + 1).
Definition none_draw (lo hi s : nat) : nat * nat := (hi, s + 1).

(** The files of [coll_ex]: the terms a and bc both start with document 0, but not next to each other. *)
Definition old_list : res ulist_d := ulist_build_d [1; 0].
Definition ranges_ex (n : nat) : list (nat * nat) := [(0, 2); (1, n); (2, 2); (1, 3)].
Example C68_nonvacuous :
  wf_collection coll_ex /\ holds_collection coll_ex texts_ex /\ some_doc_positive coll_ex /\ some_term_not_in_doc0 coll_ex /\ length (t_mapped texts_ex) < 200 /\
  ranges_in (length (comps coll_ex)) (ranges_ex (length (comps coll_ex))) /\ ranges_in (length (terms coll_ex)) (ranges_ex (length (terms coll_ex))) /\
  first_docs coll_ex = [0; 1; 0; 1] /\ (do old <- old_list; test_docs 0 (sorting_heap _) old ranges_ex 200 7 texts_ex) = Ok true.
Proof.
  destruct C44_nonvacuous as (H1 & H2 & _). split; [exact H1|]. split; [exact H2|]. split; [exists 3; split; [now left|lia]|].
  split; [exists 2; split; [cbn; lia|]; vm_compute; intros [H|[H|[H|[]]]]; discriminate|]. split; [vm_compute; lia|].
  split; [intros a b [E|[E|[E|[E|[]]]]]; injection E as <- <-; cbn; lia|]. split; [intros a b [E|[E|[E|[E|[]]]]]; injection E as <- <-; cbn; lia|].
  split; [reflexivity|vm_compute; reflexivity].
Qed.
(** The range of all four terms has duplicates: the test fails. The two ranges of two terms have none: the test passes. *)
Theorem C68_minimal_refuted :
  (do old <- old_list; test_minimal 0 (sorting_heap _) old (fun n => [(0, n)]) 7 texts_ex) = Ok false /\
  (do old <- old_list; test_minimal 0 (sorting_heap _) old (fun n => [(0, 2); (2, n)]) 7 texts_ex) = Ok true.
Proof. split; vm_compute; reflexivity. Qed.

(** The same with the ranges drawn by two generators, five each. *)
Theorem C68_drawn_refuted :
  (forall lo hi s, lo <= hi -> lo <= fst (all_draw lo hi s) <= hi) /\ (forall lo hi s, lo <= hi -> lo <= fst (none_draw lo hi s) <= hi) /\
  (do old <- old_list; test_minimal 0 (sorting_heap _) old (fun n => fst (gen_ranges all_draw 5 n 0)) 7 texts_ex) = Ok false /\
  (do old <- old_list; test_minimal 0 (sorting_heap _) old (fun n => fst (gen_ranges none_draw 5 n 0)) 7 texts_ex) = Ok true.
Proof.
  split; [intros lo hi s H; unfold all_draw; cbn [fst]; destruct (s mod 2 =? 0); lia|]. split; [intros lo hi s H; cbn; lia|]. split; vm_compute; reflexivity.
Qed.

Definition all_list_tests := (C68_docs_partial, C68_minimal_partial, C68_minimal_refuted, C68_ranges, C68_any_ranges, C68_drawn_partial, C68_drawn_refuted).
Print Assumptions all_list_tests.
