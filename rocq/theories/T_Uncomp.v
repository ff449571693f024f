(** C54: uncompressed posting lists. *)
From Coq Require Import Sorted.
From Verif Require Import Base M_Iter S_Iter M_Trie M_Word M_Bits M_EfSeq M_InvIndex M_Intersect S_Intersect P_Intersect M_Uncomp S_Uncomp P_Uncomp P_UncompLoop.
Local Open Scope nat_scope.

(** Reads through m_data are taken as x86-64 does them ([false]); see C54_alignment_refuted for the language. *)

(** Building never fails; iterating over the list of any term gives exactly its doc ids in order; size() and num_terms() are
    right. For integers of 1 to 8 bytes that can hold the universe. *)
Theorem C54_read_partial : forall width u lists, wf_ulists width u lists ->
  exists ii, uinv_build width u lists = Ok ii /\ inv_terms ii = length lists /\
    forall t l, nth_error lists t = Some l -> exists it, uinv_iterator width ii t = Ok it /\ n_size it = length l /\
      forall fuel, length l < fuel -> n_collect width false fuel it = Ok l.
Proof. exact uread_ok. Qed.
Print Assumptions C54_read_partial.

(** After any legal sequence of ++, next, access, next_geq and next_geq_by_scan the iterator stands where it should. *)
Theorem C54_history_partial : forall width u lists ii t l ops q, wf_ulists width u lists -> uinv_build width u lists = Ok ii ->
  nth_error lists t = Some l -> uops_move width l ops 0 q ->
  exists it it', uinv_iterator width ii t = Ok it /\ uops_run width false ops it = Ok it' /\ ushows width false l it' q.
Proof. exact uhistory_ok. Qed.
Print Assumptions C54_history_partial.

(** What next(), access() and the searches return: the element at the new position, the universe at the end. *)
Theorem C54_returns_partial : forall width u lists ii t l ops op p q, wf_ulists width u lists -> uinv_build width u lists = Ok ii ->
  nth_error lists t = Some l -> uops_move width l ops 0 p -> uop_moves width l op p q -> op <> UIncr ->
  exists it it' it'', uinv_iterator width ii t = Ok it /\ uops_run width false ops it = Ok it' /\ uop_run width false op it' = Ok it'' /\ n_id it'' = nth q l u.
Proof. exact ureturns_ok. Qed.
Print Assumptions C54_returns_partial.

(** intersects(range) tells whether some element of the list is in the range, ends included. *)
Theorem C54_intersects_partial : forall width u lists ii t l lo hi, wf_ulists width u lists -> uinv_build width u lists = Ok ii -> nth_error lists t = Some l ->
  exists it b, uinv_iterator width ii t = Ok it /\ n_intersects width false it lo hi = Ok b /\ (b = true <-> exists v, In v l /\ (lo <= v <= hi)%N).
Proof. exact uintersects_ok. Qed.
Print Assumptions C54_intersects_partial.

(** The intersection iterator over uncompressed lists yields exactly the doc ids common to the lists of the given terms. *)
Theorem C54_intersection_partial : forall width u postings ii sort ids lists fuel r,
  wf_ulists width (N.of_nat u) (map (map N.of_nat) postings) -> uinv_build width (N.of_nat u) (map (map N.of_nat) postings) = Ok ii ->
  sorts_by_size (n_ops width false) sort -> ids <> [] ->
  Forall2 (fun id l => 0 < id /\ nth_error postings (id - 1) = Some l) ids lists ->
  (u + 1) * (length ids + 1) < fuel -> common lists r ->
  exists x, intersection (n_ops width false) u (uinv_open width false ii) sort fuel ids = Ok x /\ yields (inter_stream (n_ops width false) u fuel) x r.
Proof.
  intros width u postings ii sort ids lists fuel r H Eb. apply (intersection_forward (n_ops width false) u (u_cursor width u)); [apply u_is_cursor|now apply u_opens].
Qed.
Print Assumptions C54_intersection_partial.

(** F41: lists are aligned to bytes only, but read through a pointer to UintType: with 32-bit integers the first read is
    already misaligned, which the language does not define. *)
Theorem C54_alignment_refuted : exists u lists ii it,
  wf_ulists 4 u lists /\ uinv_build 4 u lists = Ok ii /\ uinv_iterator 4 ii 0 = Ok it /\ n_has_next it = true /\ n_deref 4 true it = UB.
Proof.
  assert (E : (do ii <- uinv_build 4 10 [[5; 7]]%N; do it <- uinv_iterator 4 ii 0;
               Ok (n_has_next it, match n_deref 4 true it with UB => true | _ => false end)) = Ok (true, true)) by (vm_compute; reflexivity).
  destruct (bind_ok _ _ _ E) as (ii & E1 & F1). destruct (bind_ok _ _ _ F1) as (it & E2 & F2). injection F2 as H1 H2. clear E F1.
  exists 10%N, [[5; 7]]%N, ii, it. split; [split; [lia|vm_compute; reflexivity|vm_compute; reflexivity|discriminate|repeat constructor; discriminate|repeat constructor; reflexivity|repeat constructor|vm_compute; reflexivity]|].
  split; [exact E1|]. split; [exact E2|]. split; [exact H1|]. destruct (n_deref 4 true it); congruence.
Qed.
Print Assumptions C54_alignment_refuted.

(** F42: if the universe does not fit into UintType although every doc id does, the value that marks the end of a list is 0, and
    advancing an intersection can run forever. *)
Theorem C54_universe_refuted : exists ii x,
  uinv_build 1 256 [[255]; [255]]%N = Ok ii /\ intersection (n_ops 1 false) 256 (uinv_open 1 false ii) (fun its => its) 10 [1; 2] = Ok x /\
  x_cand x = 255 /\ forall fuel, inter_incr (n_ops 1 false) 256 fuel x = Fuel.
Proof. exact universe_loops. Qed.
Print Assumptions C54_universe_refuted.

(** The hypotheses are satisfiable: a list long enough for the binary search, a walk with every kind of step; an intersection. *)
Definition ex_long : list N := map (fun i => N.of_nat (3 * i)) (seq 0 20).
Example C54_nonvacuous :
  wf_ulists 2 100 [ex_long; [3; 57]]%N /\
  uops_move 2 ex_long [UIncr; UGeq 20; UNext; UAccess 1; UScan 30; UGeq 58] 0 20 /\
  (do ii <- uinv_build 2 100 [ex_long; [3; 57]]%N; do it <- uinv_iterator 2 ii 0; do it <- n_next_geq 2 false it 20;
   do vs <- n_collect 2 false 30 it; do b <- n_intersects 2 false it 31 32; Ok (n_pos it, n_id it, length vs, b)) = Ok (7, 21%N, 13, false) /\
  (do ii <- uinv_build 2 100 [ex_long; [3; 57]]%N;
   do x <- intersection (n_ops 2 false) 100 (uinv_open 2 false ii) (fun its => rev its) 1000 [1; 2];
   do y <- inter_incr (n_ops 2 false) 100 1000 x; do z <- inter_incr (n_ops 2 false) 100 1000 y; Ok (map (@x_cand _) [x; y; z])) = Ok [3; 57; 100].
Proof.
  split; [|split; [|split; vm_compute; reflexivity]].
  - split; [lia|vm_compute; reflexivity|vm_compute; reflexivity|discriminate|repeat constructor; discriminate|repeat constructor; reflexivity|repeat constructor; reflexivity|vm_compute; reflexivity].
  - assert (G : forall p x q, p <= q <= 20 -> forallb (fun i => if p <=? i then (nth i ex_long 0 <? x)%N else true) (seq 0 q) = true ->
      (if q <? 20 then (x <=? nth q ex_long 0)%N else true) = true -> first_from ex_long p x q).
    { intros p x q Hq Hb He. split; [exact Hq|]. split.
      - intros i Hi. rewrite forallb_forall in Hb. specialize (Hb i ltac:(apply in_seq; lia)). destruct (Nat.leb_spec p i); [|lia]. now apply N.ltb_lt.
      - change (length ex_long) with 20. intros L. destruct (Nat.ltb_spec q 20); [|lia]. now apply N.leb_le. }
    apply one_umove with 1; [split; [change (length ex_long) with 20; lia|reflexivity]|].
    apply one_umove with 7; [split; [vm_compute; reflexivity|apply G; [lia|vm_compute; reflexivity|vm_compute; reflexivity]]|].
    apply one_umove with 8; [split; [change (length ex_long) with 20; lia|reflexivity]|].
    apply one_umove with 1; [split; [change (length ex_long) with 20; lia|reflexivity]|].
    apply one_umove with 10; [split; [vm_compute; reflexivity|apply G; [lia|vm_compute; reflexivity|vm_compute; reflexivity]]|].
    apply one_umove with 20; [split; [vm_compute; reflexivity|apply G; [lia|vm_compute; reflexivity|vm_compute; reflexivity]]|]. constructor.
Qed.
