(** C30: word-level primitives. *)
From Verif Require Import Base M_Word S_Bits P_Word.
Local Open Scope N_scope.

(** popcount(x) is the number of ones of the word. *)
Theorem C30_popcount : forall x, x < 2 ^ 64 -> popcount x = count_occ Bool.bool_dec (bits_of 64 x) true.
Proof. exact popcount_ok. Qed.

(** select_in_word(x, k) is the position of the k-th one, for k below the number of ones. *)
Theorem C30_select_in_word : forall x k,
  x < 2 ^ 64 -> (k < count_occ Bool.bool_dec (bits_of 64 x) true)%nat ->
  exists p, select_in_word x k = Ok p /\ is_select true (bits_of 64 x) k p.
Proof. intros x k Hx Hk. apply select_in_word_ok; [exact Hx|]. now rewrite popcount_ok. Qed.

(** msb(x) is the position of the highest one of a non-zero word. *)
Theorem C30_msb : forall x, 0 < x < 2 ^ 64 ->
  exists i, msb x = Ok i /\ N.testbit x (N.of_nat i) = true /\ forall j, (i < j)%nat -> N.testbit x (N.of_nat j) = false.
Proof. exact msb_ok. Qed.

(** lsb(x) is the position of the lowest one of a non-zero word. *)
Theorem C30_lsb : forall x, 0 < x < 2 ^ 64 ->
  exists i, lsb x = Ok i /\ N.testbit x (N.of_nat i) = true /\ forall j, (j < i)%nat -> N.testbit x (N.of_nat j) = false.
Proof. intros x H. apply lsb_ok. intros ->. now destruct H. Qed.

(** The two-argument variants report zero by false and otherwise agree. *)
Theorem C30_msb_lsb_zero : msb2 0 = Ok None /\ lsb2 0 = Ok None /\
  forall x i, 0 < x < 2 ^ 64 -> (msb x = Ok i <-> msb2 x = Ok (Some i)) /\ (lsb x = Ok i <-> lsb2 x = Ok (Some i)).
Proof.
  split; [reflexivity|]. split; [reflexivity|]. intros x i H.
  destruct (msb_ok x H) as (j & Ej & _). pose proof (msb_log x H) as El.
  rewrite (msb2_log x) by apply H. destruct (N.eqb_spec x 0); [lia|].
  unfold lsb2, lsb. destruct (N.eqb_spec x 0); [lia|]. destruct (ctz_ok x) as (c & -> & _); [lia|]. cbn [bind].
  rewrite El. split; split; intros E; congruence.
Qed.

(** On zero the one-argument variants return the byte 255, which is no position in a word. *)
Theorem C30_zero : msb 0 = Ok 255%nat /\ lsb 0 = Ok 255%nat.
Proof. split; reflexivity. Qed.

(** ceil_log2(x) is the least r with x <= 2^r. *)
Theorem C30_ceil_log2 : forall x, x < 2 ^ 64 ->
  exists r, ceil_log2_w x = Ok r /\ x <= 2 ^ N.of_nat r /\ forall s, x <= 2 ^ N.of_nat s -> (r <= s)%nat.
Proof. exact ceil_log2_w_ok. Qed.

(** floor_log2(x) is the greatest r with 2^r <= x. *)
Theorem C30_floor_log2 : forall x, 0 < x < 2 ^ 64 ->
  exists r, floor_log2_w x = Ok r /\ 2 ^ N.of_nat r <= x /\ forall s, 2 ^ N.of_nat s <= x -> (s <= r)%nat.
Proof.
  intros x H. destruct (N.log2_spec x) as [Hl Hu]; [apply H|]. exists (N.to_nat (N.log2 x)). rewrite N2Nat.id. split; [|split; [exact Hl|]].
  - unfold floor_log2_w. destruct (N.ltb_spec 1 x) as [H1|H1]; [apply msb_log; exact H|]. replace x with 1 by lia. reflexivity.
  - intros s Hs. destruct (Nat.le_gt_cases s (N.to_nat (N.log2 x))) as [|Hc]; [assumption|].
    assert (2 ^ N.succ (N.log2 x) <= 2 ^ N.of_nat s) by (apply N.pow_le_mono_r; lia). lia.
Qed.

(** reverse_bits(x) reverses the order of the 64 bits. *)
Theorem C30_reverse_bits : forall x, x < 2 ^ 64 -> reverse_bits x < 2 ^ 64 /\ bits_of 64 (reverse_bits x) = rev (bits_of 64 x).
Proof.
  intros x H. split; [now apply reverse_bits_lt|]. apply nth_error_ext. intros i.
  destruct (Nat.lt_ge_cases i 64) as [Hi|Hi].
  - rewrite bits_of_nth by assumption. rewrite reverse_bits_ok by assumption. symmetry.
    rewrite (nth_error_nth' (rev (bits_of 64 x)) false) by (rewrite rev_length, bits_of_length; assumption).
    rewrite rev_nth by (rewrite bits_of_length; assumption). rewrite bits_of_length.
    f_equal. apply nth_error_nth. replace (64 - S i)%nat with (63 - i)%nat by lia. apply bits_of_nth. lia.
  - rewrite !(proj2 (nth_error_None _ _)); [reflexivity|rewrite rev_length, bits_of_length; lia|rewrite bits_of_length; lia].
Qed.

Example C30_nonvacuous :
  popcount 9223372036854779905 = 3%nat /\ select_in_word 9223372036854779905 1 = Ok 12%nat /\
  select_in_word 9223372036854779905 2 = Ok 63%nat /\ msb 4097 = Ok 12%nat /\ lsb 4096 = Ok 12%nat /\
  ceil_log2_w 4097 = Ok 13%nat /\ floor_log2_w 2 = Ok 1%nat /\ floor_log2_w 4097 = Ok 12%nat /\ reverse_bits 4097 = 9225623836668461056.
Proof. vm_compute. repeat split. Qed.

Print Assumptions C30_popcount.
Print Assumptions C30_select_in_word.
Print Assumptions C30_msb.
Print Assumptions C30_lsb.
Print Assumptions C30_msb_lsb_zero.
Print Assumptions C30_zero.
Print Assumptions C30_ceil_log2.
Print Assumptions C30_floor_log2.
Print Assumptions C30_reverse_bits.
