(** C27: bit vectors return the bits that were appended. *)
From Verif Require Import Base M_Word S_Bits P_Word M_Bits P_Bits P_Rank P_BitsRead P_BitsIter P_BitsHist.
Local Open Scope nat_scope.

(** After any legal history of push_back, append_bits, set, set_bits, zero_extend and reverse: size() is the number of bits,
    operator[] gives every bit, get_bits(pos, len) every field of less than 64 bits. (For len = 64 see below.) *)
Theorem C27_history_partial : forall os, bops_legal [] os ->
  exists b, bvb_ops bvb_empty os = Ok b /\ b_size b = length (bops_meaning [] os) /\
    (forall i, i < b_size b -> bv_get (bv_build b) i = Ok (nth i (bops_meaning [] os) false)) /\
    (forall pos len, pos + len <= b_size b -> len < 64 ->
       bv_get_bits (bv_build b) pos len = Ok (number (firstn len (skipn pos (bops_meaning [] os))))).
Proof. exact history. Qed.

(** The full statement asks for len <= 64; but the mask of get_bits evaluates 1 << 64 for len = 64, which is undefined. *)
Theorem C27_get_bits_64_refuted : exists os b, bops_legal [] os /\ bvb_ops bvb_empty os = Ok b /\ b_size b = 64 /\
  bv_get_bits (bv_build b) 0 64 = UB.
Proof.
  exists [AppendBits 5 64]. eexists. split; [cbn; repeat split; lia|]. split; [vm_compute; reflexivity|]. split; reflexivity.
Qed.

(** The built vector is as long as the sequence, not as its words. *)
Theorem C27_size : forall os b, bops_legal [] os -> bvb_ops bvb_empty os = Ok b ->
  v_size (bv_build b) = length (bops_meaning [] os).
Proof. intros os b L E. destruct (history os L) as (b' & E' & H & _). assert (b' = b) by congruence. subst b'. exact H. Qed.

(** A builder created with size and an initial bit. *)
Theorem C27_new : forall n v, exists b, bvb_new n v = Ok b /\ b_size b = n /\
  forall i, i < n -> bv_get (bv_build b) i = Ok v.
Proof.
  intros n v. destruct (new_ok n v) as (b & E & [Hr Hs Hc]). rewrite repeat_length in *. exists b. split; [assumption|]. split; [assumption|].
  intros i Hi. rewrite (get_list _ (repeat v n)) by (try exact Hr; now rewrite repeat_length). f_equal. rewrite nth_repeat_if.
  destruct (Nat.ltb_spec i n); [reflexivity|lia].
Qed.

(** One reader, any sequence of get_bits of at most 64 bits each, from any position: the consecutive fields, and the reader
    stands after them. *)
Theorem C27_reader : forall os b pos lens, bops_legal [] os -> bvb_ops bvb_empty os = Ok b ->
  Forall (fun len => len <= 64) lens -> pos + list_sum lens <= b_size b ->
  exists it, bi_get_all (v_words (bv_build b)) (bi_new pos) lens = Ok (fields (bops_meaning [] os) pos lens, it) /\ bi_pos it = pos + list_sum lens.
Proof.
  intros os b pos lens L E Hl Hfit. destruct (bvb_ops_ok os bvb_empty [] empty_ok L) as (b' & E' & [Hr Hs Hc]).
  assert (b' = b) by congruence. subst b'. rewrite Hs in Hfit.
  exact (bi_get_all_ok (b_words b) _ Hr lens (bi_new pos) (proj1 (bi_new_ok _ pos)) Hl Hfit).
Qed.

(** skip_zeros, from any reader that has read any sequence of less than 64 bits each: the number of zeros before the next one,
    and the reader stands after that one. *)
Theorem C27_skip_zeros_partial : forall os b pos len p fuel, bops_legal [] os -> bvb_ops bvb_empty os = Ok b -> len < 64 ->
  pos + len <= p -> nth_error (bops_meaning [] os) p = Some true ->
  (forall j, pos + len <= j < p -> nth_error (bops_meaning [] os) j = Some false) -> b_size b + 1 < fuel ->
  exists r it it', bi_get_bits (b_words b) (bi_new pos) len = Ok (r, it) /\
    bi_skip_zeros (b_words b) fuel it = Ok (p - (pos + len), it') /\ bi_pos it' = p + 1.
Proof.
  intros os b pos len p fuel L E Hlen Hp Hbit Hgap Hf. destruct (bvb_ops_ok os bvb_empty [] empty_ok L) as (b' & E' & [Hr Hs Hc]).
  assert (b' = b) by congruence. subst b'. set (l := bops_meaning [] os) in *.
  assert (Hpl : p < length l) by (apply nth_error_Some; congruence).
  destruct (bi_new_ok (b_words b) pos) as [Hok Hcl].
  destruct (bi_get_bits_ok (b_words b) (bi_new pos) len) as (r & it & -> & _ & Ep & Hok1 & Hcl1); [apply Hr|assumption|lia|cbn; apply (repr_fit _ l); [assumption|lia]|].
  cbn [bi_new bi_pos] in Ep. exists r, it.
  destruct (bi_skip_zeros_ok (b_words b) it p fuel) as (it' & -> & Ep' & _); rewrite ?Ep; try assumption.
  - apply Hr.
  - apply Hcl1; assumption.
  - rewrite (repr_bits _ _ Hr). now apply nth_error_nth.
  - intros j Hj. rewrite (repr_bits _ _ Hr). apply nth_error_nth. apply Hgap. lia.
  - lia.
  - exists it'. auto.
Qed.

(** After get_bits(64) the buffer keeps the bits just read, and skip_zeros counts them again: here a 1 is read 64 positions
    too early. *)
Theorem C27_skip_zeros_refuted : exists os b r it it', bops_legal [] os /\ bvb_ops bvb_empty os = Ok b /\
  bi_get_bits (b_words b) (bi_new 0) 64 = Ok (r, it) /\ bi_pos it = 64 /\
  bops_meaning [] os = bits_of 64 1 ++ [false; false; true] /\
  bi_skip_zeros (b_words b) 100 it = Ok (0, it').
Proof.
  exists [AppendBits 1 64; Push false; Push false; Push true]. do 4 eexists. split; [cbn; repeat split; lia|].
  split; [vm_compute; reflexivity|]. split; [vm_compute; reflexivity|]. split; [reflexivity|]. split; [reflexivity|]. vm_compute. reflexivity.
Qed.

(** unary_iterator from pos: next() enumerates the positions of the ones from pos on. *)
Theorem C27_ones : forall os b pos fuel, bops_legal [] os -> bvb_ops bvb_empty os = Ok b -> pos < b_size b -> b_size b < fuel ->
  exists u, ui_new (b_words b) pos = Ok u /\
    forall n, n <= length (ones_from (bops_meaning [] os) pos) -> ui_take (b_words b) fuel u n = Ok (firstn n (ones_from (bops_meaning [] os) pos)).
Proof.
  intros os b pos fuel L E Hp Hf. destruct (bvb_ops_ok os bvb_empty [] empty_ok L) as (b' & E' & [Hr Hs Hc]).
  assert (b' = b) by congruence. subst b'. apply ui_all; [assumption|congruence|].
  rewrite (repr_len _ _ Hr). pose proof (words_for_bound (length (bops_meaning [] os))). lia.
Qed.

(** get_word56 reads 8 bytes at once; near the end they lie outside the vector. *)
Theorem C27_word56_refuted : exists os b, bops_legal [] os /\ bvb_ops bvb_empty os = Ok b /\ b_size b = 64 /\
  load64_strict (b_words b) (60 / 8) = UB.
Proof. exists [AppendBits 5 64]. eexists. split; [cbn; repeat split; lia|]. split; [vm_compute; reflexivity|]. split; reflexivity. Qed.

Definition demo_ops : list bop :=
  [Push true; AppendBits 1000 20; ZeroExtend 50; SetBits 60 (2 ^ 10 - 3) 10; SetBit 3 true; AppendBits 18446744073709551615 64; Reverse].
Example C27_nonvacuous : bops_legal [] demo_ops /\ length (bops_meaning [] demo_ops) = 135 /\
  match bvb_ops bvb_empty demo_ops with
  | Ok b => bv_get_bits (bv_build b) 60 40 = Ok (number (firstn 40 (skipn 60 (bops_meaning [] demo_ops)))) /\ number (firstn 40 (skipn 60 (bops_meaning [] demo_ops))) <> 0%N
  | _ => False
  end.
Proof. split; [cbn; repeat split; lia|]. split; [reflexivity|]. vm_compute. split; [reflexivity|discriminate]. Qed.

Print Assumptions C27_history_partial.
Print Assumptions C27_get_bits_64_refuted.
Print Assumptions C27_size.
Print Assumptions C27_new.
Print Assumptions C27_reader.
Print Assumptions C27_skip_zeros_partial.
Print Assumptions C27_skip_zeros_refuted.
Print Assumptions C27_ones.
Print Assumptions C27_word56_refuted.
