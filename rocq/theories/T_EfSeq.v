(** C24: Elias-Fano sequences return what was stored. *)
From Coq Require Import Sorted.
From Verif Require Import Base S_Search M_Find P_Find M_Trie S_Trie M_Word M_Bits M_EfSeq P_EfSeq.
Local Open Scope nat_scope.

(** build(from) of a non-empty non-decreasing sequence of 64-bit values: size(), access(i), operator[](i), universe(), and the
    iterator at(lo), incremented j times (for all lo + j < size). *)
Theorem C24_sequence : forall vs, monotone vs -> Forall (fun v => (v < W64)%N) vs ->
  exists e, ef_build vs = Ok e /\ ef_size e = length vs /\
    (forall i, i < length vs -> ef_access e i = Ok (nth i vs 0%N)) /\
    (forall i, i + 1 < length vs -> ef_range e i = Ok (nth i vs 0%N, nth (i + 1) vs 0%N)) /\
    ef_universe e = Ok (List.last vs 0%N) /\
    (forall lo j, lo + j < length vs -> ef_iterate e lo j = Ok (nth (lo + j) vs 0%N)).
Proof.
  intros vs Hm Hw. destruct (ef_build_ok vs Hm Hw) as (e & E & H). exists e. split; [assumption|]. split; [apply H|].
  split; [intros; now apply ef_access_ok|]. split; [|split; [|intros; now apply ef_iterate_ok]].
  - intros i Hi. unfold ef_range. rewrite !(ef_access_ok e vs) by (assumption || lia). reflexivity.
  - assert (0 < length vs) by (destruct Hm as [Hm _]; destruct vs; [congruence|cbn; lia]).
    unfold ef_universe. rewrite (eo_size _ _ H). destruct (Nat.eqb_spec (length vs) 0); [lia|]. rewrite (ef_access_ok e vs) by (assumption || lia).
    f_equal. symmetry. apply P_Darray.last_nth. intros ->. cbn in *. lia.
Qed.
Print Assumptions C24_sequence.

(** begin() and next(): all values but the last one. *)
Theorem C24_next_partial : forall vs n, monotone vs -> Forall (fun v => (v < W64)%N) vs -> n < length vs ->
  exists e, ef_build vs = Ok e /\ (do it <- ef_begin e; ef_nexts e it n) = Ok (firstn n vs).
Proof. intros vs n Hm Hw Hn. destruct (ef_build_ok vs Hm Hw) as (e & E & H). exists e. split; [assumption|]. now apply ef_begin_nexts. Qed.
Print Assumptions C24_next_partial.

(** The call of next() for the last value looks for a further one in the high bits, and reads past their end: for every sequence. *)
Theorem C24_next_refuted : forall vs, monotone vs -> Forall (fun v => (v < W64)%N) vs ->
  exists e, ef_build vs = Ok e /\ (do it <- ef_begin e; ef_nexts e it (length vs)) = UB.
Proof. intros vs Hm Hw. destruct (ef_build_ok vs Hm Hw) as (e & E & H). exists e. split; [assumption|]. apply ef_begin_last; [assumption|apply Hm]. Qed.
Print Assumptions C24_next_refuted.

(** end() selects the position of an element that does not exist. *)
Theorem C24_end_refuted : exists vs e, monotone vs /\ ef_build vs = Ok e /\ ef_end e = UB.
Proof. exists [3; 7; 100]%N. eexists. split; [split; [discriminate|repeat constructor; discriminate]|]. split; [vm_compute; reflexivity|]. vm_compute; reflexivity. Qed.
Print Assumptions C24_end_refuted.

(** The exception for unsorted input comes too late: an element greater than the last one has been written outside of the high
    bits before. *)
Theorem C24_unsorted_refuted : ef_build [0; 100; 5]%N = UB /\ ef_build [0; 3; 2]%N = Exn.
Proof. split; vm_compute; reflexivity. Qed.
Print Assumptions C24_unsorted_refuted.

(** build(from, pointers): the values of every range, shifted by the last value stored before the range. *)
Theorem C24_ranges : forall groups, concat groups <> [] -> Forall (StronglySorted N.le) groups ->
  (fold_right N.add 0 (concat groups) < W64)%N ->
  exists e vals, ef_build2 (concat groups) (group_pointers groups) = Ok e /\ ef_size e = length (concat groups) /\ length vals = length (concat groups) /\
    reads vals (ef_access e) (ef_iterate e) /\
    forall k p, group_begin groups k <= p < group_begin groups (S k) ->
      nth p vals 0%N = (nth p (concat groups) 0 + match group_begin groups k with O => 0 | S b => nth b vals 0 end)%N.
Proof. exact ef_build2_ok. Qed.
Print Assumptions C24_ranges.

Example C24_nonvacuous :
  let vs := [0; 3; 3; 1000; 18446744073709551615]%N in
  monotone vs /\ Forall (fun v => (v < W64)%N) vs.
Proof. split; [split; [discriminate|]|]; repeat constructor; discriminate. Qed.
Example C24_values :
  let vs := [2; 3; 3; 200; 1000; 1001]%N in
  exists e, ef_build vs = Ok e /\ ef_l e = 7 /\ map (ef_access e) [0; 3; 5] = [Ok 2; Ok 200; Ok 1001]%N /\ ef_iterate e 1 4 = Ok 1001%N.
Proof. eexists. do 3 (split; [vm_compute; reflexivity|]). vm_compute; reflexivity. Qed.
Example C24_ranges_nonvacuous :
  let groups := [[2; 3]; []; [1; 2; 4]; [7]]%N in
  concat groups <> [] /\ Forall (StronglySorted N.le) groups /\ (fold_right N.add 0 (concat groups) < W64)%N.
Proof. split; [discriminate|]. split; [repeat constructor; discriminate|reflexivity]. Qed.
