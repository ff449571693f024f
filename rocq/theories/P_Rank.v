(** Counting the true values of a function on positions: rank and select. *)
From Verif Require Import Base M_Word S_Bits P_Word M_Bits P_Bits.
Local Open Scope nat_scope.

Fixpoint cnt (f : nat -> bool) (i : nat) : nat :=
  match i with
  | 0 => 0
  | S i' => cnt f i' + (if f i' then 1 else 0)
  end.

Lemma cnt_ext f g i : (forall j, j < i -> f j = g j) -> cnt f i = cnt g i.
Proof. induction i as [|i IH]; intros H; cbn [cnt]; [reflexivity|]. rewrite IH, (H i) by (intros; auto with arith). reflexivity. Qed.
Lemma cnt_app f i j : cnt f (i + j) = cnt f i + cnt (fun x => f (i + x)) j.
Proof. induction j as [|j IH]; cbn [cnt]; [now rewrite !Nat.add_0_r|]. rewrite Nat.add_succ_r. cbn [cnt]. rewrite IH. lia. Qed.
Lemma cnt_mono f i j : i <= j -> cnt f i <= cnt f j.
Proof. intros H. replace j with (i + (j - i)) by lia. rewrite cnt_app. lia. Qed.
Lemma cnt_le f i : cnt f i <= i.
Proof. induction i as [|i IH]; cbn [cnt]; [lia|]. destruct (f i); lia. Qed.
Lemma cnt_diff f i j : i <= j -> cnt f j <= cnt f i + (j - i).
Proof. intros H. replace j with (i + (j - i)) at 1 by lia. rewrite cnt_app. pose proof (cnt_le (fun x => f (i + x)) (j - i)). lia. Qed.
Lemma cnt_S f i : cnt f (S i) = cnt f i + (if f i then 1 else 0).
Proof. reflexivity. Qed.
Lemma cnt_lt f i j : i < j -> f i = true -> cnt f i < cnt f j.
Proof. intros H E. pose proof (cnt_mono f (S i) j H) as M. rewrite cnt_S, E in M. lia. Qed.
Lemma cnt_zero f i : (forall j, j < i -> f j = false) -> cnt f i = 0.
Proof. induction i as [|i IH]; intros H; cbn [cnt]; [reflexivity|]. rewrite IH, (H i) by (intros; auto with arith). reflexivity. Qed.
Lemma cnt_zero_inv f i : cnt f i = 0 -> forall j, j < i -> f j = false.
Proof. intros H j Hj. destruct (f j) eqn:E; [|reflexivity]. pose proof (cnt_lt f j i Hj E). lia. Qed.
Lemma cnt_const f i j : i <= j -> (forall x, i <= x < j -> f x = false) -> cnt f j = cnt f i.
Proof.
  intros H E. replace j with (i + (j - i)) by lia. rewrite cnt_app. rewrite (cnt_zero (fun x => f (i + x))); [lia|]. intros x Hx. apply E. lia.
Qed.
Lemma cnt_negb f i : cnt f i + cnt (fun j => negb (f j)) i = i.
Proof. induction i as [|i IH]; cbn [cnt]; [reflexivity|]. destruct (f i); cbn [negb]; lia. Qed.
Lemma cnt_inj f p p' : f p = true -> f p' = true -> cnt f p = cnt f p' -> p = p'.
Proof.
  intros H H' E. destruct (Nat.lt_trichotomy p p') as [L|[L|L]]; [|assumption|].
  - pose proof (cnt_lt f p p' L H). lia.
  - pose proof (cnt_lt f p' p L H'). lia.
Qed.
Lemma cnt_select f n k : k < cnt f n -> exists p, p < n /\ f p = true /\ cnt f p = k.
Proof.
  induction n as [|n IH]; cbn [cnt]; [lia|]. intros H. destruct (Nat.lt_ge_cases k (cnt f n)) as [L|L].
  - destruct (IH L) as (p & Hp & E). exists p. split; [lia|assumption].
  - destruct (f n) eqn:E; [|lia]. exists n. repeat split; [lia|assumption|lia].
Qed.
Lemma cnt_below f p i k : f p = true -> cnt f p = k -> cnt f i <= k -> i <= p.
Proof. intros H E L. destruct (Nat.le_gt_cases i p); [assumption|]. pose proof (cnt_lt f p i). lia. Qed.
Lemma cnt_above f p i k : f p = true -> cnt f p = k -> k < cnt f i -> p < i.
Proof. intros H E L. destruct (Nat.lt_ge_cases p i); [assumption|]. pose proof (cnt_mono f i p). lia. Qed.

(** ** Lists *)
Definition at_ (l : list bool) (i : nat) : bool := nth i l false.
Lemma rank_true l i : rank true l i = cnt (fun j => nth j l false) i.
Proof.
  revert i; induction l as [|b l IH]; intros i.
  - unfold rank. rewrite firstn_nil. symmetry. apply cnt_zero. intros j _. now destruct j.
  - unfold rank in *. destruct i as [|i]; [reflexivity|]. cbn [firstn count_occ]. change (S i) with (1 + i). rewrite cnt_app.
    change (cnt (fun x => nth (1 + x) (b :: l) false) i) with (cnt (fun x => nth x l false) i). rewrite <- IH. cbn [cnt nth Nat.add]. destruct b; cbn [negb]; destruct (Bool.bool_dec _ _); try congruence; lia.
Qed.
Lemma rank_false l i : rank false l i = cnt (fun j => negb (nth j l true)) i.
Proof.
  revert i; induction l as [|b l IH]; intros i.
  - unfold rank. rewrite firstn_nil. symmetry. apply cnt_zero. intros j _. now destruct j.
  - unfold rank in *. destruct i as [|i]; [reflexivity|]. cbn [firstn count_occ]. change (S i) with (1 + i). rewrite cnt_app.
    change (cnt (fun x => negb (nth (1 + x) (b :: l) true)) i) with (cnt (fun x => negb (nth x l true)) i). rewrite <- IH. cbn [cnt nth Nat.add]. destruct b; cbn [negb]; destruct (Bool.bool_dec _ _); try congruence; lia.
Qed.
Lemma select_true l k p : is_select true l k p <-> nth p l false = true /\ cnt (fun j => nth j l false) p = k.
Proof.
  unfold is_select. rewrite rank_true. split; intros [H E]; split; auto.
  - now apply nth_error_nth.
  - destruct (nth_error l p) eqn:En; [apply nth_error_nth with (d := false) in En; congruence|].
    apply nth_error_None in En. rewrite nth_overflow in H by assumption. discriminate.
Qed.
Lemma select_false l k p : is_select false l k p <-> nth p l true = false /\ cnt (fun j => negb (nth j l true)) p = k.
Proof.
  unfold is_select. rewrite rank_false. split; intros [H E]; split; auto.
  - now apply nth_error_nth.
  - destruct (nth_error l p) eqn:En; [apply nth_error_nth with (d := true) in En; congruence|].
    apply nth_error_None in En. rewrite nth_overflow in H by assumption. discriminate.
Qed.
Lemma rank_count b l : rank b l (length l) = count_occ Bool.bool_dec l b.
Proof. unfold rank. now rewrite firstn_all. Qed.

(** ** Words *)
Lemma popcount_cnt x : (x < W64)%N -> popcount x = cnt (tb x) 64.
Proof.
  intros H. rewrite popcount_ok by assumption. rewrite <- rank_count, bits_of_length, rank_true. apply cnt_ext.
  intros j Hj. rewrite nth_bits_of. destruct (Nat.ltb_spec j 64); [reflexivity|lia].
Qed.
Lemma select_in_word_cnt x k : (x < W64)%N -> k < cnt (tb x) 64 ->
  exists p, select_in_word x k = Ok p /\ p < 64 /\ tb x p = true /\ cnt (tb x) p = k.
Proof.
  intros H Hk. destruct (select_in_word_ok x k H) as (p & E & Hp); [now rewrite popcount_cnt|]. exists p. split; [assumption|].
  apply select_true in Hp as [Hb Hc]. rewrite nth_bits_of in Hb. destruct (Nat.ltb_spec p 64); [|discriminate]. repeat split; auto.
  rewrite <- Hc. apply cnt_ext. intros j Hj. rewrite nth_bits_of. destruct (Nat.ltb_spec j 64); [reflexivity|lia].
Qed.
