(** C29, part 2: rank and select of rs_bit_vector. *)
From Verif Require Import Base M_Word S_Bits P_Word M_Bits P_Bits P_BitsHist M_Rs P_Rs.
Local Open Scope nat_scope.

(** Built on a bit vector with any legal history, with or without hints: num_ones() counts the ones, rank(i) counts the ones and
    rank0(i) the zeros among the first i bits, select(k) and select0(k) are the positions of the k-th one and zero. *)
Theorem C29_rs_bit_vector : forall os b hints hints0, bops_legal [] os -> bvb_ops bvb_empty os = Ok b ->
  exists r, rs_build (bv_build b) hints hints0 = Ok r /\
    let l := bops_meaning [] os in
    rs_num_ones r = Ok (count_occ Bool.bool_dec l true) /\
    (forall i, i <= length l -> rs_rank r i = Ok (rank true l i) /\ rs_rank0 r i = Ok (rank false l i)) /\
    (forall k, k < count_occ Bool.bool_dec l true -> exists p, rs_select false r k = Ok p /\ is_select true l k p) /\
    (forall k, k < count_occ Bool.bool_dec l false -> exists p, rs_select true r k = Ok p /\ is_select false l k p).
Proof.
  intros os b h h0 L E. destruct (bvb_ops_ok os bvb_empty [] empty_ok L) as (b' & E' & [Hr Hs Hc]). assert (b' = b) by congruence. subst b'.
  destruct (rs_build_ok (b_words b) _ h h0 Hr) as (r & Er & _ & Hok). exists r. unfold bv_build. rewrite Hs. split; [exact Er|]. exact (rs_all r _ Hok).
Qed.
Print Assumptions C29_rs_bit_vector.

(** A position is the only answer of a select. *)
Theorem C29_select_unique : forall b l k p q, is_select b l k p -> is_select b l k q -> p = q.
Proof. exact select_unique. Qed.
Print Assumptions C29_select_unique.

(** Three blocks of 512 bits, hints at work for the zeros. *)
Example C29_rs_nonvacuous :
  let os := [Push true; ZeroExtend 1100; Push true; Push true; AppendBits 5 3] in
  bops_legal [] os /\
  exists b, bvb_ops bvb_empty os = Ok b /\
    (do r <- rs_build (bv_build b) true true;
     do n <- rs_num_ones r; do r1 <- rs_rank r 1102; do r2 <- rs_rank0 r 1102; do s <- rs_select false r 3; do s0 <- rs_select true r 1099; do s1 <- rs_select true r 1100;
     Ok (rs_hints0 r, (n, r1, r2), (s, s0, s1))) = Ok ([2; 3], (5, 2, 1100), (1103, 1100, 1104)).
Proof. split; [cbn; repeat split; lia|]. eexists. split; [vm_compute; reflexivity|vm_compute; reflexivity]. Qed.
