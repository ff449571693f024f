(** C21 posting lists can be read back; C23 next_geq. *)
From Coq Require Import Sorted.
From Verif Require Import Base M_Trie M_Word M_Bits M_EfSeq M_CompactEf M_InvIndex M_CeRange S_Lists P_Lists P_CeRange.
Local Open Scope nat_scope.

(** Building never fails; iterating over the list of any term gives exactly the doc ids of the list in order, size() is the
    length of the list, and num_terms() the number of lists; whatever the word behind the end of the bits holds. *)
Theorem C21_posting_lists : forall u lists tail, wf_lists u lists -> (tail < 2 ^ 64)%N ->
  exists ii, inv_build u lists = Ok ii /\ inv_terms ii = length lists /\
    forall t l, nth_error lists t = Some l -> exists it, inv_iterator tail ii t = Ok it /\ c_size it = length l /\
      forall fuel, length l < fuel -> c_collect fuel it = Ok l.
Proof. exact posting_lists_ok. Qed.

(** After any legal sequence of ++, access and next_geq the iterator stands where it should, and shows it. *)
Theorem C21_history : forall u lists tail ii t l ops q, wf_lists u lists -> (tail < 2 ^ 64)%N -> inv_build u lists = Ok ii ->
  nth_error lists t = Some l -> lops_move u l ops 0 q ->
  exists it it', inv_iterator tail ii t = Ok it /\ lops_run ops it = Ok it' /\ shows u l it' q.
Proof. exact history_ok. Qed.

(** next_geq(x) from any reachable position of a strictly increasing list, for x not below the current value: the iterator
    moves to the first element >= x, which is not before the current position; or to the end, showing the universe. *)
Theorem C23_next_geq : forall u lists tail ii t l ops p x, wf_lists u lists -> (tail < 2 ^ 64)%N -> inv_build u lists = Ok ii ->
  nth_error lists t = Some l -> StronglySorted N.lt l -> lops_move u l ops 0 p -> (nth p l u <= x)%N -> (x <= u)%N \/ p < length l ->
  exists it it' it'' q, inv_iterator tail ii t = Ok it /\ lops_run ops it = Ok it' /\ c_next_geq it' x = Ok it'' /\
    p <= q /\ is_first_geq l x q /\ c_pos it'' = q /\ c_val it'' = nth q l u.
Proof. exact next_geq_first. Qed.

(** intersects(range), after any history: whether some doc id of the list is in the range, ends included. *)
Theorem C21_intersects : forall u lists tail ii t l ops p lo hi, wf_lists u lists -> (tail < 2 ^ 64)%N -> inv_build u lists = Ok ii ->
  nth_error lists t = Some l -> lops_move u l ops 0 p ->
  exists it it' b, inv_iterator tail ii t = Ok it /\ lops_run ops it = Ok it' /\ c_intersects it' lo hi = Ok b /\ (b = true <-> exists v, In v l /\ (lo <= v <= hi)%N).
Proof. exact range_ok. Qed.

(** F18: with duplicates, next_geq of the current value goes back. *)
Theorem C23_duplicates_refuted : exists u lists ii it it' it'',
  wf_lists u lists /\ inv_build u lists = Ok ii /\ nth_error lists 0 = Some [5; 5]%N /\ inv_iterator 0 ii 0 = Ok it /\
  c_next it = Ok it' /\ c_pos it' = 1 /\ c_val it' = 5%N /\ c_next_geq it' 5 = Ok it'' /\ c_pos it'' = 0.
Proof.
  assert (E : (do ii <- inv_build 10 [[5; 5]]%N; do it <- inv_iterator 0 ii 0; do it' <- c_next it; do it'' <- c_next_geq it' 5;
               Ok (c_pos it', c_val it', c_pos it'')) = Ok (1, 5%N, 0)) by (vm_compute; reflexivity).
  destruct (bind_ok _ _ _ E) as (ii & E1 & F1). destruct (bind_ok _ _ _ F1) as (it & E2 & F2). destruct (bind_ok _ _ _ F2) as (it' & E3 & F3). destruct (bind_ok _ _ _ F3) as (it'' & E4 & F4). clear E F1 F2 F3.
  injection F4 as H1 H2 H3. exists 10%N, [[5; 5]]%N, ii, it, it', it''. split; [|split; [exact E1|split; [reflexivity|split; [exact E2|split; [exact E3|split; [exact H1|split; [exact H2|split; [exact E4|exact H3]]]]]]]].
  split; [vm_compute; reflexivity|discriminate|repeat constructor; discriminate|repeat constructor; discriminate|repeat constructor|vm_compute; reflexivity].
Qed.

(** F27: next_geq beyond the universe on an exhausted iterator: position() exceeds size(). *)
Theorem C23_beyond_universe_refuted : exists u lists ii it it' it'',
  wf_lists u lists /\ inv_build u lists = Ok ii /\ nth_error lists 0 = Some [5; 7]%N /\ inv_iterator 0 ii 0 = Ok it /\
  c_access it 2 = Ok it' /\ c_pos it' = c_size it' /\ c_next_geq it' 11 = Ok it'' /\ c_pos it'' = 3 /\ c_size it'' = 2.
Proof.
  assert (E : (do ii <- inv_build 10 [[5; 7]]%N; do it <- inv_iterator 0 ii 0; do it' <- c_access it 2; do it'' <- c_next_geq it' 11;
               Ok (c_pos it', c_size it', c_pos it'', c_size it'')) = Ok (2, 2, 3, 2)) by (vm_compute; reflexivity).
  destruct (bind_ok _ _ _ E) as (ii & E1 & F1). destruct (bind_ok _ _ _ F1) as (it & E2 & F2). destruct (bind_ok _ _ _ F2) as (it' & E3 & F3). destruct (bind_ok _ _ _ F3) as (it'' & E4 & F4). clear E F1 F2 F3.
  injection F4 as H1 H2 H3 H4. exists 10%N, [[5; 7]]%N, ii, it, it', it''. split; [|split; [exact E1|split; [reflexivity|split; [exact E2|split; [exact E3|split; [rewrite H1, H2; reflexivity|split; [exact E4|split; [exact H3|exact H4]]]]]]]].
  split; [vm_compute; reflexivity|discriminate|repeat constructor; discriminate|repeat constructor; discriminate|repeat constructor|vm_compute; reflexivity].
Qed.

(** The hypotheses are satisfiable: two lists, a walk with every kind of step. *)
Example C21_C23_nonvacuous :
  wf_lists 100 [[3; 17; 18; 60; 99]; [0]]%N /\
  lops_move 100 [3; 17; 18; 60; 99]%N [Next; NextGeq 18; Next; Access 1; NextGeq 50] 0 3 /\
  (nth 3 [3; 17; 18; 60; 99]%N 100 <= 70)%N /\
  (do ii <- inv_build 100 [[3; 17; 18; 60; 99]; [0]]%N; do it <- inv_iterator 0 ii 0; do a <- c_intersects it 19 59; do b <- c_intersects it 19 60; Ok (a, b)) = Ok (false, true).
Proof.
  split; [|split; [|split; [|vm_compute; reflexivity]]].
  - split; [vm_compute; reflexivity|discriminate|repeat constructor; discriminate|repeat constructor; discriminate|repeat constructor|vm_compute; reflexivity].
  - apply one_move with 1; [cbn; lia|]. apply one_move with 2; [|apply one_move with 3; [cbn; lia|apply one_move with 1; [cbn; lia|apply one_move with 3; [|constructor]]]];
      (split; [left; cbn; lia|split; [cbn; lia|split; [|cbn; lia]]]); intros i Hi; destruct i as [|[|[|i]]]; cbn; lia.
  - cbn. lia.
Qed.

Print Assumptions C21_posting_lists.
Print Assumptions C21_history.
Print Assumptions C21_intersects.
Print Assumptions C23_next_geq.
Print Assumptions C23_duplicates_refuted.
Print Assumptions C23_beyond_universe_refuted.
