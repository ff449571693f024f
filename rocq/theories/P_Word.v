(** Words: lanes of bytes, popcount, select. *)
From Verif Require Import Base M_Word S_Bits.
Local Open Scope N_scope.

(** ** Bits of words *)
Lemma W64_pow : W64 = 2 ^ 64.
Proof. reflexivity. Qed.

Lemma tb_of n : tb 0 n = false.
Proof. apply N.bits_0. Qed.

Lemma tb_high x i : x < W64 -> (64 <= i)%nat -> tb x i = false.
Proof.
  intros H Hi. unfold tb. rewrite W64_pow in H. destruct (N.eq_dec x 0) as [->|Hn]; [apply N.bits_0|].
  apply N.bits_above_log2. apply N.log2_lt_pow2 in H; lia.
Qed.

Lemma tb_ext x y : (forall i, tb x i = tb y i) -> x = y.
Proof. intros H. apply N.bits_inj. intros i. rewrite <- (N2Nat.id i). apply H. Qed.

Lemma tb_ext64 x y : x < W64 -> y < W64 -> (forall i, (i < 64)%nat -> tb x i = tb y i) -> x = y.
Proof.
  intros Hx Hy H. apply tb_ext. intros i. destruct (Nat.lt_ge_cases i 64); [now apply H|].
  now rewrite !tb_high.
Qed.

Lemma below_pow_iff x n : x < 2 ^ N.of_nat n <-> forall i, (n <= i)%nat -> tb x i = false.
Proof.
  split.
  - intros H i Hi. unfold tb. destruct (N.eq_dec x 0) as [->|Hn]; [apply N.bits_0|].
    apply N.bits_above_log2. apply N.log2_lt_pow2 in H; lia.
  - intros H. destruct (N.eq_dec x 0) as [->|Hn]; [apply N.neq_0_lt_0, N.pow_nonzero; lia|].
    apply N.log2_lt_pow2; [lia|]. destruct (N.lt_ge_cases (N.log2 x) (N.of_nat n)) as [|Hc]; [assumption|].
    specialize (H (N.to_nat (N.log2 x))). unfold tb in H. rewrite N2Nat.id, N.bit_log2 in H by assumption.
    discriminate H. lia.
Qed.

Lemma word_iff x : x < W64 <-> forall i, (64 <= i)%nat -> tb x i = false.
Proof. rewrite W64_pow. apply (below_pow_iff x 64). Qed.

Lemma tb_land x y i : tb (N.land x y) i = tb x i && tb y i.
Proof. apply N.land_spec. Qed.
Lemma tb_lor x y i : tb (N.lor x y) i = tb x i || tb y i.
Proof. apply N.lor_spec. Qed.
Lemma tb_lxor x y i : tb (N.lxor x y) i = xorb (tb x i) (tb y i).
Proof. apply N.lxor_spec. Qed.
Lemma tb_shiftr x n i : tb (N.shiftr x (N.of_nat n)) i = tb x (i + n).
Proof. unfold tb. rewrite N.shiftr_spec by lia. f_equal. lia. Qed.
Lemma tb_shiftl x n i : tb (N.shiftl x (N.of_nat n)) i = (n <=? i)%nat && tb x (i - n).
Proof.
  unfold tb. destruct (Nat.leb_spec n i).
  - rewrite N.shiftl_spec_high by lia. cbn. f_equal. lia.
  - rewrite N.shiftl_spec_low by lia. reflexivity.
Qed.
Lemma tb_mod_pow x n i : tb (x mod 2 ^ N.of_nat n) i = (i <? n)%nat && tb x i.
Proof.
  unfold tb. destruct (Nat.ltb_spec i n).
  - rewrite N.mod_pow2_bits_low by lia. reflexivity.
  - rewrite N.mod_pow2_bits_high by lia. reflexivity.
Qed.
Lemma tb_wrap x i : tb (wrap x) i = (i <? 64)%nat && tb x i.
Proof. unfold wrap. rewrite W64_pow. apply (tb_mod_pow x 64). Qed.
Lemma wrap_lt x : wrap x < W64.
Proof. apply N.mod_lt. discriminate. Qed.
Lemma wrap_small x : x < W64 -> wrap x = x.
Proof. apply N.mod_small. Qed.
Lemma tb_wnot x i : tb (wnot x) i = if (i <? 64)%nat then negb (tb x i) else tb x i.
Proof.
  unfold wnot, tb. destruct (Nat.ltb_spec i 64).
  - apply N.lnot_spec_low. lia.
  - apply N.lnot_spec_high. lia.
Qed.
Lemma tb_ones n i : tb (N.ones (N.of_nat n)) i = (i <? n)%nat.
Proof.
  unfold tb. destruct (Nat.ltb_spec i n).
  - apply N.ones_spec_low. lia.
  - apply N.ones_spec_high. lia.
Qed.

Lemma shl_ok x n : (n < 64)%nat -> shl x n = Ok (wrap (N.shiftl x (N.of_nat n))).
Proof. intros H. unfold shl. destruct (Nat.ltb_spec n 64); [reflexivity|lia]. Qed.
Lemma shr_ok x n : (n < 64)%nat -> shr x n = Ok (N.shiftr x (N.of_nat n)).
Proof. intros H. unfold shr. destruct (Nat.ltb_spec n 64); [reflexivity|lia]. Qed.

Lemma land_lt x y : x < W64 -> N.land x y < W64.
Proof. rewrite !word_iff. intros H i Hi. rewrite tb_land, H by assumption. reflexivity. Qed.
Lemma land_lt_r x y : y < W64 -> N.land x y < W64.
Proof. rewrite !word_iff. intros H i Hi. rewrite tb_land, H by assumption. apply andb_false_r. Qed.
Lemma lor_lt x y : x < W64 -> y < W64 -> N.lor x y < W64.
Proof. rewrite !word_iff. intros H H' i Hi. rewrite tb_lor, H, H' by assumption. reflexivity. Qed.
Lemma shiftr_lt x n : x < W64 -> N.shiftr x (N.of_nat n) < W64.
Proof. rewrite !word_iff. intros H i Hi. rewrite tb_shiftr. apply H. lia. Qed.
Lemma wnot_lt x : x < W64 -> wnot x < W64.
Proof. rewrite !word_iff. intros H i Hi. rewrite tb_wnot. destruct (Nat.ltb_spec i 64); [lia|]. now apply H. Qed.

(** ** msb, lsb *)
Lemma clz_log x : 0 < x < W64 -> clz x = Ok (63 - N.to_nat (N.log2 x))%nat /\ (N.to_nat (N.log2 x) < 64)%nat.
Proof.
  intros H. unfold clz. destruct (N.eqb_spec x 0); [lia|]. split; [reflexivity|].
  destruct H as [H0 H]. rewrite W64_pow in H. apply N.log2_lt_pow2 in H; lia.
Qed.
Lemma msb_log x : 0 < x < W64 -> msb x = Ok (N.to_nat (N.log2 x)).
Proof.
  intros H. unfold msb. destruct (N.eqb_spec x 0); [lia|]. destruct (clz_log x H) as [-> Hl]. cbn [bind]. f_equal. lia.
Qed.
Lemma msb2_log x : x < W64 -> msb2 x = Ok (if x =? 0 then None else Some (N.to_nat (N.log2 x))).
Proof.
  intros H. unfold msb2. destruct (N.eqb_spec x 0); [reflexivity|].
  destruct (clz_log x) as [-> Hl]; [lia|]. cbn [bind]. do 2 f_equal. lia.
Qed.

Lemma ctz_pos_ok p : tb (Npos p) (ctz_pos p) = true /\ forall i, (i < ctz_pos p)%nat -> tb (Npos p) i = false.
Proof.
  induction p as [p IH|p IH|]; cbn [ctz_pos].
  - split; [reflexivity|]. intros i Hi. lia.
  - destruct IH as [H1 H2]. split.
    + unfold tb in *. rewrite Nat2N.inj_succ. change (N.pos p~0) with (2 * N.pos p). now rewrite N.testbit_even_succ by lia.
    + intros [|i] Hi; [reflexivity|]. unfold tb in *. rewrite Nat2N.inj_succ. change (N.pos p~0) with (2 * N.pos p).
      rewrite N.testbit_even_succ by lia. apply H2. lia.
  - split; [reflexivity|]. intros i Hi. lia.
Qed.
Lemma ctz_ok x : x <> 0 -> exists i, ctz x = Ok i /\ tb x i = true /\ forall j, (j < i)%nat -> tb x j = false.
Proof.
  destruct x as [|p]; [congruence|]. intros _. exists (ctz_pos p). split; [reflexivity|]. apply ctz_pos_ok.
Qed.
Lemma lsb_ok x : x <> 0 -> exists i, lsb x = Ok i /\ tb x i = true /\ forall j, (j < i)%nat -> tb x j = false.
Proof. intros H. unfold lsb. destruct (N.eqb_spec x 0); [contradiction|]. now apply ctz_ok. Qed.
Lemma lsb2_ok x : x <> 0 -> exists i, lsb2 x = Ok (Some i) /\ tb x i = true /\ forall j, (j < i)%nat -> tb x j = false.
Proof.
  intros H. unfold lsb2. destruct (N.eqb_spec x 0); [contradiction|].
  destruct (ctz_ok x H) as (i & -> & Hi). exists i. split; [reflexivity|assumption].
Qed.

Lemma msb_ok x : 0 < x < W64 -> exists i, msb x = Ok i /\ tb x i = true /\ forall j, (i < j)%nat -> tb x j = false.
Proof.
  intros H. exists (N.to_nat (N.log2 x)). split; [now apply msb_log|]. unfold tb. rewrite N2Nat.id. split.
  - apply N.bit_log2. lia.
  - intros j Hj. apply N.bits_above_log2. lia.
Qed.

Lemma ceil_log2_w_ok x : x < W64 ->
  exists r, ceil_log2_w x = Ok r /\ x <= 2 ^ N.of_nat r /\ forall s, x <= 2 ^ N.of_nat s -> (r <= s)%nat.
Proof.
  intros H. unfold ceil_log2_w. destruct (N.ltb_spec 1 x) as [H1|H1].
  - rewrite msb_log by lia. cbn [bind]. exists (N.to_nat (N.log2 (x - 1)) + 1)%nat. split; [reflexivity|].
    destruct (N.log2_spec (x - 1)) as [Hl Hu]; [lia|]. split.
    + replace (N.of_nat (N.to_nat (N.log2 (x - 1)) + 1)) with (N.succ (N.log2 (x - 1))) by lia. lia.
    + intros s Hs. destruct (Nat.le_gt_cases (N.to_nat (N.log2 (x - 1)) + 1) s) as [|Hc]; [assumption|].
      assert (2 ^ N.of_nat s <= 2 ^ N.log2 (x - 1)) by (apply N.pow_le_mono_r; lia). lia.
  - exists 0%nat. split; [reflexivity|]. split; [cbn; lia|]. intros s _. lia.
Qed.

(** ** Lanes *)
Fixpoint pack (l : list N) : N := match l with [] => 0 | b :: l' => b + 256 * pack l' end.
Fixpoint unpack (n : nat) (x : N) : list N :=
  match n with O => [] | S n' => x mod 256 :: unpack n' (x / 256) end.

Definition bytes (l : list N) : Prop := Forall (fun b => b < 256) l.

Lemma pack_lt l : bytes l -> pack l < 256 ^ N.of_nat (length l).
Proof.
  induction 1 as [|b l Hb Hl IH]; [reflexivity|]. cbn [pack length]. rewrite Nat2N.inj_succ, N.pow_succ_r'. nia.
Qed.
Lemma unpack_length n x : length (unpack n x) = n.
Proof. revert x. induction n; intros x; cbn; auto. Qed.
Lemma unpack_bytes n x : bytes (unpack n x).
Proof. revert x. induction n; intros x; cbn; constructor; [apply N.mod_lt; lia|apply IHn]. Qed.
Lemma pack_unpack n : forall x, x < 256 ^ N.of_nat n -> pack (unpack n x) = x.
Proof.
  induction n as [|n IH]; intros x H; cbn [unpack pack]; [cbn in H; lia|].
  rewrite IH.
  - pose proof (N.div_mod x 256). lia.
  - rewrite Nat2N.inj_succ, N.pow_succ_r' in H. apply N.div_lt_upper_bound; lia.
Qed.

Lemma lane_split b p : b < 256 -> (b + 256 * p) mod 256 = b /\ (b + 256 * p) / 256 = p.
Proof.
  intros H. split.
  - rewrite (N.mul_comm 256 p), N.mod_add by lia. now apply N.mod_small.
  - rewrite (N.mul_comm 256 p), N.div_add by lia. rewrite N.div_small by assumption. lia.
Qed.
Lemma tb_lane b p i : b < 256 -> tb (b + 256 * p) i = if (i <? 8)%nat then tb b i else tb p (i - 8).
Proof.
  intros H. destruct (lane_split b p H) as [Hm Hd]. destruct (Nat.ltb_spec i 8).
  - replace (tb b i) with (tb ((b + 256 * p) mod 2 ^ N.of_nat 8) i) by (change (2 ^ N.of_nat 8) with 256; now rewrite Hm).
    rewrite tb_mod_pow. destruct (Nat.ltb_spec i 8); [reflexivity|lia].
  - replace (tb p (i - 8)) with (tb (N.shiftr (b + 256 * p) (N.of_nat 8)) (i - 8)).
    + rewrite tb_shiftr. f_equal. lia.
    + rewrite N.shiftr_div_pow2. change (2 ^ N.of_nat 8) with 256. now rewrite Hd.
Qed.
Lemma byte_high b i : b < 256 -> (8 <= i)%nat -> tb b i = false.
Proof. intros H. change 256 with (2 ^ N.of_nat 8) in H. rewrite below_pow_iff in H. apply H. Qed.
Lemma byte_iff b : b < 256 <-> forall i, (8 <= i)%nat -> tb b i = false.
Proof. change 256 with (2 ^ N.of_nat 8). apply below_pow_iff. Qed.

Fixpoint map2 {A B C} (f : A -> B -> C) (l : list A) (m : list B) : list C :=
  match l, m with a :: l', b :: m' => f a b :: map2 f l' m' | _, _ => [] end.

Lemma pack_land l : forall m, bytes l -> bytes m -> length l = length m ->
  N.land (pack l) (pack m) = pack (map2 N.land l m).
Proof.
  induction l as [|b l IH]; intros [|c m] Hl Hm Hlen; try discriminate; [reflexivity|].
  inversion Hl; inversion Hm; subst. cbn [pack map2]. rewrite <- IH by (auto; cbn in Hlen; lia).
  apply tb_ext. intros i. rewrite tb_land, !tb_lane; auto.
  - destruct (i <? 8)%nat; now rewrite tb_land.
  - rewrite byte_iff. intros j Hj. now rewrite tb_land, byte_high.
Qed.
Lemma pack_lor l : forall m, bytes l -> bytes m -> length l = length m ->
  N.lor (pack l) (pack m) = pack (map2 N.lor l m).
Proof.
  induction l as [|b l IH]; intros [|c m] Hl Hm Hlen; try discriminate; [reflexivity|].
  inversion Hl; inversion Hm; subst. cbn [pack map2]. rewrite <- IH by (auto; cbn in Hlen; lia).
  apply tb_ext. intros i. rewrite tb_lor, !tb_lane; auto.
  - destruct (i <? 8)%nat; now rewrite tb_lor.
  - rewrite byte_iff. intros j Hj. now rewrite tb_lor, !byte_high.
Qed.
(** Shift right inside the lanes: the mask removes what comes from the neighbour. *)
Lemma pack_shiftr_land s l : forall m, (s <= 8)%nat -> bytes l -> Forall (fun b => b < 2 ^ N.of_nat (8 - s)) m -> length l = length m ->
  N.land (N.shiftr (pack l) (N.of_nat s)) (pack m) = pack (map2 (fun b c => N.land (N.shiftr b (N.of_nat s)) c) l m).
Proof.
  induction l as [|b l IH]; intros [|c m] Hs Hl Hm Hlen; try discriminate; [now rewrite N.land_0_r|].
  inversion Hl as [|? ? Hb Hl']; inversion Hm as [|? ? Hc Hm']; subst. cbn [pack map2]. rewrite <- IH by (auto; cbn in Hlen; lia).
  assert (Hc' : c < 256).
  { eapply N.lt_le_trans; [exact Hc|]. change 256 with (2 ^ 8). apply N.pow_le_mono_r; lia. }
  apply tb_ext. intros i. rewrite tb_land, tb_shiftr, !tb_lane; auto.
  - rewrite below_pow_iff in Hc. destruct (Nat.ltb_spec i 8), (Nat.ltb_spec (i + s) 8); try lia.
    + now rewrite tb_land, tb_shiftr.
    + rewrite tb_land, Hc by lia. now rewrite !andb_false_r.
    + rewrite tb_land, tb_shiftr. do 2 f_equal. lia.
  - rewrite byte_iff. intros j Hj. rewrite tb_land, (byte_high c) by assumption. apply andb_false_r.
Qed.
Lemma pack_sub l : forall m, Forall2 (fun b c => c <= b) l m -> pack l - pack m = pack (map2 N.sub l m) /\ pack m <= pack l.
Proof.
  induction l as [|b l IH]; intros m H; inversion H as [|? c ? m' Hbc Hrest]; subst; [split; reflexivity|].
  destruct (IH m' Hrest) as [E L]. cbn [pack map2]. split; lia.
Qed.
Lemma pack_add l : forall m, length l = length m -> pack l + pack m = pack (map2 N.add l m).
Proof.
  induction l as [|b l IH]; intros [|c m] Hlen; try discriminate; [reflexivity|].
  cbn [pack map2]. rewrite <- IH by (cbn in Hlen; lia). lia.
Qed.
Lemma pack_shiftr8 l : forall j, bytes l -> N.shiftr (pack l) (N.of_nat (8 * j)) = pack (skipn j l).
Proof.
  induction l as [|b l IH]; intros j H; [now rewrite skipn_nil, N.shiftr_0_l|].
  inversion H; subst. destruct j as [|j]; [apply N.shiftr_0_r|]. cbn [skipn]. rewrite <- IH by assumption.
  replace (N.of_nat (8 * S j)) with (8 + N.of_nat (8 * j)) by lia. rewrite <- N.shiftr_shiftr. f_equal. cbn [pack].
  rewrite N.shiftr_div_pow2. now apply lane_split.
Qed.
Lemma pack_head l : bytes l -> N.land (pack l) 255 = hd 0 l.
Proof.
  intros H. destruct l as [|b l]; [reflexivity|]. inversion H; subst. cbn [pack hd].
  change 255 with (N.ones 8). rewrite N.land_ones. now apply lane_split.
Qed.

Lemma map2_length {A B C} (f : A -> B -> C) l : forall m, length (map2 f l m) = Nat.min (length l) (length m).
Proof. induction l as [|a l IH]; intros [|b m]; cbn; auto. Qed.

(** ** byte_counts *)
Definition bc1 (b : N) : N := b - N.land (N.shiftr b 1) 85.
Definition bc2 (b : N) : N := N.land b 51 + N.land (N.shiftr b 2) 51.
Definition bc3 (b : N) : N := N.land (b + N.land (N.shiftr b 4) 15) 15.
Definition ones8 (b : N) : nat := count_occ Bool.bool_dec (bits_of 8 b) true.

Definition all_bytes : list N := map N.of_nat (seq 0 256).
Lemma all_bytes_in b : b < 256 -> In b all_bytes.
Proof. intros H. apply in_map_iff. exists (N.to_nat b). split; [apply N2Nat.id|]. apply in_seq. lia. Qed.
Lemma byte_forall (f : N -> bool) : forallb f all_bytes = true -> forall b, b < 256 -> f b = true.
Proof. intros H b Hb. rewrite forallb_forall in H. apply H. now apply all_bytes_in. Qed.

Lemma bc_step1 b : b < 256 -> N.land (N.shiftr b 1) 85 <= b.
Proof. intros H. apply N.leb_le. revert b H. apply (byte_forall (fun b => N.land (N.shiftr b 1) 85 <=? b)). vm_compute. reflexivity. Qed.
Lemma bc_step2 b : b < 256 -> bc2 (bc1 b) < 256 /\ bc2 (bc1 b) + N.shiftr (bc2 (bc1 b)) 4 < 256.
Proof.
  intros H. enough (E : ((bc2 (bc1 b) <? 256) && (bc2 (bc1 b) + N.shiftr (bc2 (bc1 b)) 4 <? 256))%bool = true).
  { apply andb_true_iff in E as [E1 E2]. apply N.ltb_lt in E1, E2. split; assumption. }
  revert b H. apply (byte_forall (fun b => ((bc2 (bc1 b) <? 256) && (bc2 (bc1 b) + N.shiftr (bc2 (bc1 b)) 4 <? 256))%bool)).
  vm_compute. reflexivity.
Qed.
Lemma bc_ones b : b < 256 -> bc3 (bc2 (bc1 b)) = N.of_nat (ones8 b) /\ (ones8 b <= 8)%nat.
Proof.
  intros H. enough (E : ((bc3 (bc2 (bc1 b)) =? N.of_nat (ones8 b)) && (ones8 b <=? 8)%nat)%bool = true).
  { apply andb_true_iff in E as [E1 E2]. apply N.eqb_eq in E1. apply Nat.leb_le in E2. split; assumption. }
  revert b H. apply (byte_forall (fun b => ((bc3 (bc2 (bc1 b)) =? N.of_nat (ones8 b)) && (ones8 b <=? 8)%nat)%bool)).
  vm_compute. reflexivity.
Qed.

Lemma eight {A} (l : list A) : length l = 8%nat -> exists a b c d e f g h, l = [a; b; c; d; e; f; g; h].
Proof.
  intros H. do 8 (destruct l as [|? l]; [discriminate|]). destruct l; [|discriminate]. repeat eexists.
Qed.
Lemma word_bytes x : x < W64 -> exists l, x = pack l /\ bytes l /\ length l = 8%nat.
Proof.
  intros H. exists (unpack 8 x). split; [symmetry; apply pack_unpack; exact H|]. split; [apply unpack_bytes|apply unpack_length].
Qed.
Lemma bytes_word l : bytes l -> length l = 8%nat -> pack l < W64.
Proof. intros H E. apply pack_lt in H. rewrite E in H. exact H. Qed.

Lemma land_le_r a b : N.land a b <= b.
Proof.
  destruct (N.le_gt_cases (N.land a b) b) as [|Hc]; [assumption|exfalso].
  assert (E : N.land (N.land a b) b = N.land a b) by (now rewrite <- N.land_assoc, N.land_diag).
  assert (Hs : N.ldiff b (N.land a b) = b - N.land a b \/ True) by (right; exact I). clear Hs.
  assert (H : b = N.lxor (N.land a b) (N.ldiff b a)).
  { apply N.bits_inj. intros i. rewrite N.lxor_spec, N.land_spec, N.ldiff_spec.
    destruct (N.testbit a i), (N.testbit b i); reflexivity. }
  assert (H' : b = N.land a b + N.ldiff b a).
  { rewrite H at 1. symmetry. apply N.add_nocarry_lxor. apply N.bits_inj. intros i.
    rewrite N.land_spec, N.land_spec, N.ldiff_spec, N.bits_0. destruct (N.testbit a i), (N.testbit b i); reflexivity. }
  lia.
Qed.

(** Nibbles. *)
Lemma nib b : b mod 16 <= 15 /\ b = 16 * (b / 16) + b mod 16.
Proof. pose proof (N.mod_lt b 16). pose proof (N.div_mod b 16). lia. Qed.
Lemma nib_sum b c : b / 16 <= 4 /\ b mod 16 <= 4 -> c mod 16 <= 4 -> b + (b / 16 + 16 * (c mod 16)) < 256.
Proof. destruct (nib b). lia. Qed.
Lemma nib_sum0 b : b / 16 <= 4 /\ b mod 16 <= 4 -> b + b / 16 < 256.
Proof. destruct (nib b). lia. Qed.
Lemma nib_add b d c : N.land (b + (d + 16 * c)) 15 = N.land (b + d) 15.
Proof.
  change 15 with (N.ones 4). rewrite !N.land_ones. change (2 ^ 4) with 16.
  replace (b + (d + 16 * c)) with (b + d + c * 16) by lia. apply N.mod_add. lia.
Qed.
Lemma nib_bc3 b : b / 16 <= 4 -> bc3 b = N.land (b + b / 16) 15.
Proof.
  intros Hb. unfold bc3. rewrite N.shiftr_div_pow2. change (2 ^ 4) with 16. do 2 f_equal. change 15 with (N.ones 4). rewrite N.land_ones.
  apply N.mod_small. change (2 ^ 4) with 16. lia.
Qed.
Lemma pack_div16 b0 b1 b2 b3 b4 b5 b6 b7 :
  N.shiftr (pack [b0; b1; b2; b3; b4; b5; b6; b7]) 4 =
    pack [b0 / 16 + 16 * (b1 mod 16); b1 / 16 + 16 * (b2 mod 16); b2 / 16 + 16 * (b3 mod 16); b3 / 16 + 16 * (b4 mod 16);
          b4 / 16 + 16 * (b5 mod 16); b5 / 16 + 16 * (b6 mod 16); b6 / 16 + 16 * (b7 mod 16); b7 / 16].
Proof.
  rewrite N.shiftr_div_pow2. change (2 ^ 4) with 16. symmetry. apply N.div_unique with (r := b0 mod 16); [now apply N.mod_lt|].
  rewrite (proj2 (nib b0)) at 1. rewrite (proj2 (nib b1)) at 1. rewrite (proj2 (nib b2)) at 1. rewrite (proj2 (nib b3)) at 1.
  rewrite (proj2 (nib b4)) at 1. rewrite (proj2 (nib b5)) at 1. rewrite (proj2 (nib b6)) at 1. rewrite (proj2 (nib b7)) at 1.
  cbn [pack]. ring.
Qed.

Lemma byte_counts_pack l : bytes l -> length l = 8%nat ->
  byte_counts (pack l) = pack (map (fun b => N.of_nat (ones8 b)) l).
Proof.
  intros Hl Hlen. unfold byte_counts.
  assert (E1 : wsub (pack l) (N.shiftr (N.land (pack l) (wmul 10 ones_step_4)) 1) = pack (map bc1 l)).
  { rewrite N.shiftr_land. change (N.shiftr (wmul 10 ones_step_4) 1) with (pack (repeat 85 8)).
    change (N.shiftr (pack l) 1) with (N.shiftr (pack l) (N.of_nat 1)).
    rewrite (pack_shiftr_land 1 l (repeat 85 8)); [|lia|assumption|repeat constructor|assumption].
    destruct (pack_sub l (map2 (fun b c => N.land (N.shiftr b (N.of_nat 1)) c) l (repeat 85 8))) as [E L].
    { destruct (eight l Hlen) as (b0 & b1 & b2 & b3 & b4 & b5 & b6 & b7 & ->). unfold bytes in Hl. rewrite !Forall_cons_iff in Hl.
      destruct Hl as (?&?&?&?&?&?&?&?&_). cbn [repeat map2]. repeat (constructor; [now apply bc_step1|]). constructor. }
    pose proof (bytes_word l Hl Hlen) as Hw.
    unfold wsub, wrap. replace (pack l + W64 - _) with (pack l - pack (map2 (fun b c => N.land (N.shiftr b (N.of_nat 1)) c) l (repeat 85 8)) + 1 * W64) by lia.
    rewrite N.mod_add by discriminate. rewrite N.mod_small by lia. rewrite E.
    destruct (eight l Hlen) as (b0 & b1 & b2 & b3 & b4 & b5 & b6 & b7 & ->). reflexivity. }
  rewrite E1. clear E1. set (l1 := map bc1 l).
  assert (Hl1 : bytes l1 /\ length l1 = 8%nat).
  { subst l1. rewrite map_length. split; [|assumption]. apply Forall_map. eapply Forall_impl; [|exact Hl].
    intros b Hb. unfold bc1. cbn in Hb |- *. lia. }
  destruct Hl1 as [Hl1 Hlen1].
  assert (E2 : wadd (N.land (pack l1) (wmul 3 ones_step_4)) (N.land (N.shiftr (pack l1) 2) (wmul 3 ones_step_4)) = pack (map bc2 l1)
     /\ bytes (map bc2 l1)).
  { change (wmul 3 ones_step_4) with (pack (repeat 51 8)).
    assert (Hb51 : bytes (repeat 51 8)) by (repeat constructor).
    rewrite pack_land by (auto; rewrite repeat_length; auto).
    change (N.shiftr (pack l1) 2) with (N.shiftr (pack l1) (N.of_nat 2)).
    rewrite (pack_shiftr_land 2 l1 (repeat 51 8)); [|lia|assumption|repeat constructor|assumption].
    unfold wadd. rewrite pack_add by (rewrite !map2_length; reflexivity).
    assert (Hb : bytes (map bc2 l1)).
    { apply Forall_map. eapply Forall_impl; [|exact Hl1]. intros b Hb. unfold bc2.
      pose proof (land_le_r b 51). pose proof (land_le_r (N.shiftr b 2) 51). lia. }
    split; [|assumption].
    assert (E : map2 N.add (map2 N.land l1 (repeat 51 8)) (map2 (fun b c => N.land (N.shiftr b (N.of_nat 2)) c) l1 (repeat 51 8)) = map bc2 l1).
    { destruct (eight l1 Hlen1) as (b0 & b1 & b2 & b3 & b4 & b5 & b6 & b7 & ->). reflexivity. }
    rewrite E. apply wrap_small. apply bytes_word; [assumption|]. now rewrite map_length. }
  destruct E2 as [E2 Hl2]. rewrite E2. clear E2.
  assert (E3 : map (fun b => N.of_nat (ones8 b)) l = map bc3 (map bc2 l1)).
  { subst l1. rewrite !map_map. apply map_ext_in. intros b Hb. symmetry. apply bc_ones. now apply (proj1 (Forall_forall _ _) Hl). }
  assert (Hsmall : Forall (fun b => b / 16 <= 4 /\ b mod 16 <= 4) (map bc2 l1)).
  { subst l1. rewrite map_map. apply Forall_map. eapply Forall_impl; [|exact Hl]. intros b Hb. cbn beta in Hb |- *.
    rewrite <- !N.leb_le, <- andb_true_iff. revert b Hb.
    apply (byte_forall (fun b => ((bc2 (bc1 b) / 16 <=? 4) && (bc2 (bc1 b) mod 16 <=? 4))%bool)). vm_compute. reflexivity. }
  rewrite E3. assert (Hlen2 : length (map bc2 l1) = 8%nat) by (now rewrite map_length).
  revert Hl2 Hsmall Hlen2. generalize (map bc2 l1). clear. intros l Hl Hs Hlen.
  destruct (eight l Hlen) as (b0 & b1 & b2 & b3 & b4 & b5 & b6 & b7 & ->).
  unfold bytes in Hl. rewrite !Forall_cons_iff in Hl, Hs.
  destruct Hl as (?&?&?&?&?&?&?&?&_). destruct Hs as (?&?&?&?&?&?&?&?&_).
  unfold wadd. rewrite pack_div16, pack_add by reflexivity. cbn [map2].
  match goal with |- N.land (wrap (pack ?l)) _ = _ => assert (Hb : bytes l) end.
  { repeat (constructor; [first [apply nib_sum; tauto|apply nib_sum0; tauto]|]). constructor. }
  rewrite wrap_small by (apply bytes_word; [exact Hb|reflexivity]).
  change (wmul 15 ones_step_8) with (pack (repeat 15 8)).
  rewrite pack_land; [|exact Hb|repeat constructor|reflexivity].
  cbn [map2 repeat map]. rewrite !nib_add. rewrite !nib_bc3 by tauto. reflexivity.
Qed.

(** ** popcount *)
Lemma bits_of_length n x : length (bits_of n x) = n.
Proof. unfold bits_of. now rewrite map_length, seq_length. Qed.
Lemma bits_of_nth n x i : (i < n)%nat -> nth_error (bits_of n x) i = Some (tb x i).
Proof.
  intros H. unfold bits_of. rewrite nth_error_map.
  rewrite (nth_error_nth' (seq 0 n) 0%nat) by (now rewrite seq_length). rewrite seq_nth by assumption. reflexivity.
Qed.
Lemma bits_of_app m n x : bits_of (m + n) x = bits_of m x ++ bits_of n (N.shiftr x (N.of_nat m)).
Proof.
  unfold bits_of. rewrite seq_app, map_app. f_equal. cbn [plus].
  replace (seq m n) with (map (fun i => (i + m)%nat) (seq 0 n)).
  - rewrite map_map. apply map_ext. intros i. symmetry. apply tb_shiftr.
  - clear. induction n as [|n IH]; [reflexivity|]. rewrite !seq_S, map_app, IH. cbn. do 2 f_equal. lia.
Qed.
Lemma bits_of_ext n x y : (forall i, (i < n)%nat -> tb x i = tb y i) -> bits_of n x = bits_of n y.
Proof. intros H. unfold bits_of. apply map_ext_in. intros i Hi. apply in_seq in Hi. apply H. lia. Qed.
Lemma bits_of_pack l : bytes l -> forall b n, b < 256 -> bits_of (8 + n) (b + 256 * pack l) = bits_of 8 b ++ bits_of n (pack l).
Proof.
  intros Hl b n Hb. rewrite bits_of_app. f_equal.
  - apply bits_of_ext. intros i Hi. rewrite tb_lane by assumption. destruct (Nat.ltb_spec i 8); [reflexivity|lia].
  - f_equal. rewrite N.shiftr_div_pow2. now apply lane_split.
Qed.

Definition sum (l : list nat) : nat := fold_right Nat.add 0%nat l.

Lemma count_pack l : bytes l -> count_occ Bool.bool_dec (bits_of (8 * length l) (pack l)) true = sum (map ones8 l).
Proof.
  induction l as [|b l IH]; intros H; [reflexivity|]. inversion H; subst.
  replace (8 * length (b :: l))%nat with (8 + 8 * length l)%nat by (cbn [length]; lia).
  cbn [pack]. rewrite bits_of_pack, count_occ_app, IH by assumption. reflexivity.
Qed.

(** Multiplication by 0x0101...: prefix sums of the bytes. *)
Lemma mul_ones c0 c1 c2 c3 c4 c5 c6 c7 : c0 + c1 + c2 + c3 + c4 + c5 + c6 + c7 < 256 ->
  let s := [c0; c0 + c1; c0 + c1 + c2; c0 + c1 + c2 + c3; c0 + c1 + c2 + c3 + c4; c0 + c1 + c2 + c3 + c4 + c5;
            c0 + c1 + c2 + c3 + c4 + c5 + c6; c0 + c1 + c2 + c3 + c4 + c5 + c6 + c7] in
  wmul (pack [c0; c1; c2; c3; c4; c5; c6; c7]) ones_step_8 = pack s /\ bytes s.
Proof.
  intros H s. assert (Hs : bytes s) by (subst s; repeat (constructor; [lia|]); constructor). split; [|assumption].
  unfold wmul, wrap.
  replace (pack [c0; c1; c2; c3; c4; c5; c6; c7] * ones_step_8)
    with (pack s + pack [c1 + c2 + c3 + c4 + c5 + c6 + c7; c2 + c3 + c4 + c5 + c6 + c7; c3 + c4 + c5 + c6 + c7;
                         c4 + c5 + c6 + c7; c5 + c6 + c7; c6 + c7; c7] * W64)
    by (subst s; cbn [pack]; unfold ones_step_8, W64; ring).
  rewrite N.mod_add by discriminate. apply N.mod_small. apply (bytes_word s); [assumption|reflexivity].
Qed.

Lemma ones8_le b : (ones8 b <= 8)%nat.
Proof.
  unfold ones8. rewrite <- (bits_of_length 8 b) at 2. apply count_occ_bound.
Qed.

Lemma popcount_pack l : bytes l -> length l = 8%nat -> popcount (pack l) = sum (map ones8 l).
Proof.
  intros Hl Hlen. unfold popcount. rewrite byte_counts_pack by assumption. unfold bytes_sum.
  destruct (eight l Hlen) as (b0 & b1 & b2 & b3 & b4 & b5 & b6 & b7 & ->). cbn [map].
  pose proof (ones8_le b0). pose proof (ones8_le b1). pose proof (ones8_le b2). pose proof (ones8_le b3).
  pose proof (ones8_le b4). pose proof (ones8_le b5). pose proof (ones8_le b6). pose proof (ones8_le b7).
  destruct (mul_ones (N.of_nat (ones8 b0)) (N.of_nat (ones8 b1)) (N.of_nat (ones8 b2)) (N.of_nat (ones8 b3))
    (N.of_nat (ones8 b4)) (N.of_nat (ones8 b5)) (N.of_nat (ones8 b6)) (N.of_nat (ones8 b7))) as [-> Hs]; [lia|].
  change 56 with (N.of_nat (8 * 7)). rewrite pack_shiftr8 by assumption. cbn [skipn pack sum fold_right]. lia.
Qed.

Lemma popcount_ok x : x < W64 -> popcount x = count_occ Bool.bool_dec (bits_of 64 x) true.
Proof.
  intros H. destruct (word_bytes x H) as (l & -> & Hl & Hlen). rewrite popcount_pack by assumption.
  pose proof (count_pack l Hl) as E. rewrite Hlen in E. symmetry. exact E.
Qed.

(** ** select_in_word *)
(** The position of the k-th one in a byte, by search. *)
Fixpoint sel (l : list bool) (k : nat) : nat :=
  match l with
  | [] => 0
  | b :: l' => if b : bool then match k with O => 0 | S k' => S (sel l' k') end else S (sel l' k)
  end.
Lemma sel_ok l : forall k, (k < count_occ Bool.bool_dec l true)%nat -> is_select true l k (sel l k).
Proof.
  unfold is_select, rank.
  induction l as [|b l IH]; intros k H; [cbn in H; lia|]. destruct b; cbn [sel count_occ] in *.
  - destruct (Bool.bool_dec true true); [|congruence]. destruct k as [|k]; [split; reflexivity|].
    destruct (IH k) as [E R]; [lia|]. split; [exact E|]. cbn [firstn count_occ].
    destruct (Bool.bool_dec true true); [|congruence]. now rewrite R.
  - destruct (Bool.bool_dec false true); [congruence|]. destruct (IH k H) as [E R]. split; [exact E|].
    cbn [firstn count_occ]. destruct (Bool.bool_dec false true); [congruence|]. exact R.
Qed.

Definition table_ok (b : N) : bool :=
  forallb (fun r => if (r <? ones8 b)%nat
                    then match get select_in_byte (N.to_nat (N.lor b (N.shiftl (N.of_nat r) 8))) with Ok v => (v =? sel (bits_of 8 b) r)%nat | _ => false end
                    else true) (seq 0 8).
Lemma table_correct b r : b < 256 -> (r < ones8 b)%nat ->
  get select_in_byte (N.to_nat (N.lor b (N.shiftl (N.of_nat r) 8))) = Ok (sel (bits_of 8 b) r).
Proof.
  intros Hb Hr. assert (E : table_ok b = true).
  { revert b Hb Hr. intros b Hb _. revert b Hb. apply (byte_forall table_ok). vm_compute. reflexivity. }
  unfold table_ok in E. rewrite forallb_forall in E. specialize (E r).
  assert (Hin : In r (seq 0 8)) by (apply in_seq; pose proof (ones8_le b); lia).
  specialize (E Hin). destruct (Nat.ltb_spec r (ones8 b)); [|lia].
  destruct (get select_in_byte _) as [v| | |]; try discriminate. apply Nat.eqb_eq in E. now subst.
Qed.

Lemma select_app l1 l2 k p : is_select true l2 k p ->
  is_select true (l1 ++ l2) (count_occ Bool.bool_dec l1 true + k) (length l1 + p).
Proof.
  intros [E R]. unfold is_select, rank in *. split.
  - rewrite nth_error_app2 by lia. rewrite <- E. f_equal. lia.
  - rewrite firstn_app_2, count_occ_app, R. reflexivity.
Qed.
Lemma select_app_l l1 l2 k p : is_select true l1 k p -> is_select true (l1 ++ l2) k p.
Proof.
  intros [E R]. unfold is_select, rank in *. assert (p < length l1)%nat by (apply nth_error_Some; congruence). split.
  - now rewrite nth_error_app1.
  - rewrite firstn_app. replace (p - length l1)%nat with 0%nat by lia. cbn [firstn]. now rewrite app_nil_r.
Qed.

(** Selection through the bytes: skip the first j. *)
Lemma select_bytes l : bytes l -> forall j k, (j < length l)%nat ->
  (k < ones8 (nth j l 0%N))%nat ->
  is_select true (bits_of (8 * length l) (pack l)) (sum (map ones8 (firstn j l)) + k) (8 * j + sel (bits_of 8 (nth j l 0%N)) k).
Proof.
  induction 1 as [|b l Hb Hl IH]; intros j k Hj Hk; [cbn in Hj; lia|].
  replace (8 * length (b :: l))%nat with (8 + 8 * length l)%nat by (cbn [length]; lia).
  cbn [pack]. rewrite bits_of_pack by assumption. destruct j as [|j].
  - cbn [firstn map sum fold_right plus nth] in *. rewrite Nat.mul_0_r. apply select_app_l. now apply sel_ok.
  - cbn [nth firstn map sum fold_right] in *. change (fold_right Nat.add 0%nat) with sum.
    replace (8 * S j + sel (bits_of 8 (nth j l 0%N)) k)%nat with (length (bits_of 8 b) + (8 * j + sel (bits_of 8 (nth j l 0%N)) k))%nat
      by (rewrite bits_of_length; lia).
    rewrite <- Nat.add_assoc. apply select_app. apply IH; [cbn in Hj; lia|assumption].
Qed.

(** Comparison of the prefix sums with k, lane by lane. *)
Lemma cmp_lane s k : (s <= 64)%nat -> (k < 64)%nat -> N.of_nat s <= N.of_nat k + 128 /\
  N.land (N.of_nat k + 128 - N.of_nat s) 128 = (if (s <=? k)%nat then 128 else 0) /\ N.of_nat k + 128 - N.of_nat s < 256.
Proof.
  intros Hs Hk. split; [lia|]. split; [|lia].
  assert (H : forall a, a < 128 -> N.land (128 + a) 128 = 128 /\ N.land a 128 = 0).
  { intros a Ha. split; apply tb_ext; intros i; rewrite tb_land; change 128 with (2 ^ 7) in *;
      change 7 with (N.of_nat 7) in *; rewrite below_pow_iff in Ha.
    - assert (Hb : forall i, tb (2 ^ N.of_nat 7) i = (i =? 7)%nat).
      { intros j. unfold tb. rewrite N.pow2_bits_eqb. destruct (Nat.eqb_spec j 7); [subst; reflexivity|]. apply N.eqb_neq. lia. }
      rewrite Hb. destruct (Nat.eqb_spec i 7) as [->|]; [|apply andb_false_r]. rewrite andb_true_r.
      unfold tb. replace (2 ^ N.of_nat 7 + a) with (N.lor (2 ^ N.of_nat 7) a).
      + rewrite N.lor_spec, N.pow2_bits_true. reflexivity.
      + assert (Hz : N.land (2 ^ N.of_nat 7) a = 0).
        { apply tb_ext. intros j. rewrite tb_land, Hb, tb_of. destruct (Nat.eqb_spec j 7) as [->|]; [|reflexivity]. rewrite Ha by lia. reflexivity. }
        rewrite N.add_nocarry_lxor by exact Hz. rewrite N.lxor_lor by exact Hz. reflexivity.
    - unfold tb in *. rewrite N.bits_0, N.pow2_bits_eqb. destruct (N.eqb_spec (N.of_nat 7) (N.of_nat i)) as [E|]; [|apply andb_false_r].
      assert (i = 7%nat) by lia. subst. rewrite Ha by lia. reflexivity. }
  destruct (Nat.leb_spec s k) as [L|L].
  - replace (N.of_nat k + 128 - N.of_nat s) with (128 + (N.of_nat k - N.of_nat s)) by lia. apply H. lia.
  - apply H. lia.
Qed.

Lemma hd_skipn {A} (d : A) l j : hd d (skipn j l) = nth j l d.
Proof. revert j; induction l as [|a l IH]; intros [|j]; cbn; auto. Qed.
Lemma bytes_skipn l j : bytes l -> bytes (skipn j l).
Proof. intros H. rewrite <- (firstn_skipn j l) in H. apply Forall_app in H. apply H. Qed.

Lemma rep_lor k : (k < 64)%nat -> N.lor (wmul (N.of_nat k) ones_step_8) msbs_step_8 = pack (repeat (N.of_nat k + 128) 8).
Proof.
  intros Hk. assert (E : wmul (N.of_nat k) ones_step_8 = pack (repeat (N.of_nat k) 8)).
  { unfold wmul. rewrite wrap_small by (unfold ones_step_8, W64; lia). cbn [repeat pack]. unfold ones_step_8. ring. }
  rewrite E. change msbs_step_8 with (pack (repeat 128 8)).
  rewrite pack_lor; [|repeat (constructor; [lia|]); constructor|repeat constructor|reflexivity].
  assert (Hl : N.lor (N.of_nat k) 128 = N.of_nat k + 128).
  { assert (H : N.lor (N.of_nat k) 128 =? N.of_nat k + 128 = true); [|now apply N.eqb_eq].
    assert (In k (seq 0 64)) by (apply in_seq; lia). revert k H Hk E. assert (Ht : forallb (fun k => N.lor (N.of_nat k) 128 =? N.of_nat k + 128) (seq 0 64) = true) by (vm_compute; reflexivity).
    rewrite forallb_forall in Ht. intros k Hin _ _. now apply Ht. }
  cbn [repeat map2]. now rewrite Hl.
Qed.

Lemma select_place l k j : bytes l -> length l = 8%nat -> (j < 8)%nat ->
  (sum (map ones8 (firstn j l)) <= k < sum (map ones8 (firstn j l)) + ones8 (nth j l 0%N))%nat -> (k < 64)%nat ->
  wmul (byte_counts (pack l)) ones_step_8 = pack (map (fun i => N.of_nat (sum (map ones8 (firstn (S i) l)))) (seq 0 8)) ->
  bytes (map (fun i => N.of_nat (sum (map ones8 (firstn (S i) l)))) (seq 0 8)) ->
  popcount (N.land (wsub (N.lor (wmul (N.of_nat k) ones_step_8) msbs_step_8) (wmul (byte_counts (pack l)) ones_step_8)) msbs_step_8) = j ->
  exists p, select_in_word (pack l) k = Ok p /\ is_select true (bits_of 64 (pack l)) k p.
Proof.
  intros Hl Hlen Hj Hk Hk64 Es Hs Ep. unfold select_in_word. rewrite Ep. rewrite Es. clear Ep Es.
  set (S := map (fun i => N.of_nat (sum (map ones8 (firstn (S i) l)))) (seq 0 8)) in *.
  rewrite !shr_ok by lia. cbn [bind]. rewrite (Nat.mul_comm j 8).
  assert (E1 : wrap (N.shiftl (pack S) 8) = pack (0 :: firstn 7 S)).
  { assert (HSl : length S = 8%nat) by reflexivity.
    clearbody S. destruct (eight S HSl) as (s0 & s1 & s2 & s3 & s4 & s5 & s6 & s7 & ->).
    rewrite N.shiftl_mul_pow2. unfold wrap.
    replace (pack [s0; s1; s2; s3; s4; s5; s6; s7] * 2 ^ 8) with (pack (0 :: firstn 7 [s0; s1; s2; s3; s4; s5; s6; s7]) + s7 * W64)
      by (cbn [firstn pack]; unfold W64; change (2 ^ 8) with 256; ring).
    rewrite N.mod_add by discriminate. apply N.mod_small. apply bytes_word; [|reflexivity].
    unfold bytes in Hs. rewrite !Forall_cons_iff in Hs. cbn [firstn]. repeat (constructor; [tauto || lia|]). constructor. }
  assert (Hs7 : bytes (0 :: firstn 7 S)) by (constructor; [lia|]; rewrite <- (firstn_skipn 7 S) in Hs; apply Forall_app in Hs; apply Hs).
  rewrite E1. rewrite !pack_shiftr8 by assumption. rewrite !pack_head by (apply bytes_skipn; assumption).
  rewrite !hd_skipn.
  assert (E2 : nth j (0 :: firstn 7 S) 0 = N.of_nat (sum (map ones8 (firstn j l)))).
  { do 8 (destruct j as [|j]; [reflexivity|]). lia. }
  rewrite E2. set (a := sum (map ones8 (firstn j l))) in *.
  assert (E3 : wsub (N.of_nat k) (N.of_nat a) = N.of_nat (k - a)).
  { unfold wsub, wrap. replace (N.of_nat k + W64 - N.of_nat a) with (N.of_nat (k - a) + 1 * W64) by (unfold W64; lia).
    rewrite N.mod_add by discriminate. apply N.mod_small. unfold W64. lia. }
  rewrite E3. assert (Hr : (k - a < ones8 (nth j l 0%N))%nat) by lia. pose proof (ones8_le (nth j l 0%N)) as H8.
  rewrite wrap_small by (rewrite N.shiftl_mul_pow2; change (2 ^ 8) with 256; unfold W64; lia).
  assert (Hb : nth j l 0 < 256).
  { apply (proj1 (Forall_forall _ _) Hl). apply nth_In. lia. }
  rewrite table_correct by assumption. cbn [bind]. eexists; split; [reflexivity|].
  pose proof (select_bytes l Hl j (k - a)) as H. rewrite Hlen in H. specialize (H Hj Hr). change (8 * 8)%nat with 64%nat in H.
  fold a in H. replace (a + (k - a))%nat with k in H by lia. exact H.
Qed.

Lemma select_in_word_ok x k : x < W64 -> (k < popcount x)%nat ->
  exists p, select_in_word x k = Ok p /\ is_select true (bits_of 64 x) k p.
Proof.
  intros Hx Hk. destruct (word_bytes x Hx) as (l & -> & Hl & Hlen).
  pose proof (popcount_pack l Hl Hlen) as Hp. rewrite Hp in Hk.
  pose proof (byte_counts_pack l Hl Hlen) as Ebc.
  destruct (eight l Hlen) as (b0 & b1 & b2 & b3 & b4 & b5 & b6 & b7 & El).
  pose proof (ones8_le b0). pose proof (ones8_le b1). pose proof (ones8_le b2). pose proof (ones8_le b3).
  pose proof (ones8_le b4). pose proof (ones8_le b5). pose proof (ones8_le b6). pose proof (ones8_le b7).
  assert (Es : wmul (byte_counts (pack l)) ones_step_8 = pack (map (fun i => N.of_nat (sum (map ones8 (firstn (S i) l)))) (seq 0 8)) /\
    bytes (map (fun i => N.of_nat (sum (map ones8 (firstn (S i) l)))) (seq 0 8))).
  { rewrite Ebc. subst l. cbn [map].
    destruct (mul_ones (N.of_nat (ones8 b0)) (N.of_nat (ones8 b1)) (N.of_nat (ones8 b2)) (N.of_nat (ones8 b3))
      (N.of_nat (ones8 b4)) (N.of_nat (ones8 b5)) (N.of_nat (ones8 b6)) (N.of_nat (ones8 b7))) as [-> Hs]; [lia|].
    cbn [seq map firstn sum fold_right].
    match goal with |- pack ?a = pack ?b /\ _ => replace b with a; [split; [reflexivity|exact Hs]|] end.
    repeat (apply f_equal2; [lia|]). reflexivity. }
  destruct Es as [Es Hs].
  set (S := map (fun i => N.of_nat (sum (map ones8 (firstn (S i) l)))) (seq 0 8)) in *.
  assert (Hk64 : (k < 64)%nat) by (subst l; cbn [map sum fold_right] in Hk; lia).
  assert (Ep : popcount (N.land (wsub (N.lor (wmul (N.of_nat k) ones_step_8) msbs_step_8) (wmul (byte_counts (pack l)) ones_step_8)) msbs_step_8)
    = sum (map (fun i => if (sum (map ones8 (firstn (Datatypes.S i) l)) <=? k)%nat then 1 else 0)%nat (seq 0 8))).
  { rewrite Es, rep_lor by assumption.
    assert (Hle : forall i, (sum (map ones8 (firstn i l)) <= 64)%nat).
    { intros i. subst l. do 9 (destruct i as [|i]; [cbn [firstn map sum fold_right]; lia|]). cbn [firstn map sum fold_right]. lia. }
    destruct (pack_sub (repeat (N.of_nat k + 128) 8) S) as [E L].
    { subst S. cbn [repeat seq map]. repeat (constructor; [apply cmp_lane; [apply Hle|assumption]|]). constructor. }
    assert (Hlt : pack (map2 N.sub (repeat (N.of_nat k + 128) 8) S) < W64).
    { apply bytes_word; [|reflexivity]. subst S. cbn [repeat seq map map2]. repeat (constructor; [apply cmp_lane; [apply Hle|assumption]|]). constructor. }
    unfold wsub, wrap.
    replace (pack (repeat (N.of_nat k + 128) 8) + W64 - pack S) with (pack (repeat (N.of_nat k + 128) 8) - pack S + 1 * W64) by lia.
    rewrite N.mod_add by discriminate. rewrite E, N.mod_small by assumption.
    change msbs_step_8 with (pack (repeat 128 8)).
    rewrite pack_land; [|subst S; cbn [repeat seq map map2]; repeat (constructor; [apply cmp_lane; [apply Hle|assumption]|]); constructor|repeat constructor|reflexivity].
    rewrite popcount_pack.
    - subst S. cbn [repeat seq map map2].
      rewrite !(fun s Hs => proj1 (proj2 (cmp_lane s k Hs Hk64))) by apply Hle.
      assert (Hone : forall b : bool, ones8 (if b then 128 else 0) = (if b then 1 else 0)%nat) by (intros []; vm_compute; reflexivity).
      rewrite !Hone. reflexivity.
    - subst S. cbn [repeat seq map map2].
      rewrite !(fun s Hs => proj1 (proj2 (cmp_lane s k Hs Hk64))) by apply Hle.
      repeat (constructor; [destruct (_ <=? _)%nat; reflexivity|]). constructor.
    - reflexivity. }
  assert (Hj : exists j, (j < 8)%nat /\ (sum (map ones8 (firstn j l)) <= k < sum (map ones8 (firstn j l)) + ones8 (nth j l 0%N))%nat /\
     sum (map (fun i => if (sum (map ones8 (firstn (Datatypes.S i) l)) <=? k)%nat then 1 else 0)%nat (seq 0 8)) = j).
  { clear Ep Es Hs Ebc Hp. clearbody S. subst l. cbn [firstn map sum fold_right seq] in *. rewrite !Nat.add_0_r in *.
    repeat match goal with |- context [(?a <=? k)%nat] => destruct (Nat.leb_spec a k); [|
      repeat match goal with |- context [(?a <=? k)%nat] => destruct (Nat.leb_spec a k); [exfalso; lia|] end ] end.
    1: exfalso; lia.
    all: match goal with |- exists j, _ /\ _ /\ ?s = j => exists s end.
    all: cbn [plus firstn map sum fold_right nth]; repeat split; lia. }
  destruct Hj as (j & Hj8 & Hjk & Ej). rewrite Ej in Ep.
  exact (select_place l k j Hl Hlen Hj8 Hjk Hk64 Es Hs Ep).
Qed.

(** ** reverse_bits *)
Definition swap_step (m : N) (s : nat) (x : N) : N :=
  N.lor (N.land (N.shiftr x (N.of_nat s)) m) (wrap (N.shiftl (N.land x m) (N.of_nat s))).
Definition swap_perm (m : N) (s i : nat) : nat := if tb m i then (i + s)%nat else (i - s)%nat.
Definition swap_mask_ok (m : N) (s : nat) : bool :=
  forallb (fun i => if tb m i then negb ((s <=? i)%nat && tb m (i - s)) && (i + s <? 64)%nat else (s <=? i)%nat && tb m (i - s)) (seq 0 64).

Lemma swap_step_ok m s x i : swap_mask_ok m s = true -> (i < 64)%nat ->
  tb (swap_step m s x) i = tb x (swap_perm m s i) /\ (swap_perm m s i < 64)%nat.
Proof.
  intros H Hi. unfold swap_mask_ok in H. rewrite forallb_forall in H. specialize (H i).
  assert (Hin : In i (seq 0 64)) by (apply in_seq; lia). specialize (H Hin). cbv beta in H.
  unfold swap_step, swap_perm. rewrite tb_lor, tb_land, tb_shiftr, tb_wrap, tb_shiftl, tb_land.
  destruct (tb m i); apply andb_true_iff in H as [H1 H2].
  - apply Nat.ltb_lt in H2. apply negb_true_iff in H1. split; [|assumption]. rewrite andb_true_r.
    replace ((i <? 64)%nat && ((s <=? i)%nat && (tb x (i - s) && tb m (i - s)))) with false; [apply orb_false_r|].
    destruct (s <=? i)%nat; [|now rewrite andb_false_r]. cbn in H1 |- *. rewrite H1. now rewrite !andb_false_r.
  - rewrite H1, H2. rewrite andb_false_r, andb_true_r. cbn [orb andb]. split; [|lia].
    destruct (Nat.ltb_spec i 64); [reflexivity|lia].
Qed.
Lemma swap_step_lt m s x : m < W64 -> swap_step m s x < W64.
Proof. intros H. apply lor_lt; [now apply land_lt_r|apply wrap_lt]. Qed.

Lemma reverse_bits_ok x : x < W64 -> forall i, (i < 64)%nat -> tb (reverse_bits x) i = tb x (63 - i).
Proof.
  intros Hx i Hi. unfold reverse_bits, reverse_bytes.
  change (N.lor (N.land (N.shiftr x 1) magic_mask_1) (wrap (N.shiftl (N.land x magic_mask_1) 1))) with (swap_step magic_mask_1 1 x).
  set (x1 := swap_step magic_mask_1 1 x).
  change (N.lor (N.land (N.shiftr x1 2) magic_mask_2) (wrap (N.shiftl (N.land x1 magic_mask_2) 2))) with (swap_step magic_mask_2 2 x1).
  set (x2 := swap_step magic_mask_2 2 x1).
  change (N.lor (N.land (N.shiftr x2 4) magic_mask_3) (wrap (N.shiftl (N.land x2 magic_mask_3) 4))) with (swap_step magic_mask_3 4 x2).
  set (x3 := swap_step magic_mask_3 4 x2).
  change (N.lor (N.land (N.shiftr x3 8) magic_mask_4) (wrap (N.shiftl (N.land x3 magic_mask_4) 8))) with (swap_step magic_mask_4 8 x3).
  set (x4 := swap_step magic_mask_4 8 x3).
  change (N.lor (N.land (N.shiftr x4 16) magic_mask_5) (wrap (N.shiftl (N.land x4 magic_mask_5) 16))) with (swap_step magic_mask_5 16 x4).
  set (x5 := swap_step magic_mask_5 16 x4).
  assert (H5 : x5 < W64) by (apply swap_step_lt; reflexivity).
  change 32 with (N.of_nat 32). rewrite tb_lor, tb_shiftr, tb_wrap, tb_shiftl.
  set (j5 := if (i <? 32)%nat then (i + 32)%nat else (i - 32)%nat).
  assert (E5 : tb x5 (i + 32) || ((i <? 64)%nat && ((32 <=? i)%nat && tb x5 (i - 32))) = tb x5 j5 /\ (j5 < 64)%nat).
  { subst j5. destruct (Nat.ltb_spec i 32), (Nat.leb_spec 32 i), (Nat.ltb_spec i 64); try lia.
    rewrite tb_high by (assumption || lia). split; [reflexivity|lia]. }
  destruct E5 as [-> L5].
  destruct (swap_step_ok magic_mask_5 16 x4 j5) as [E4 L4]; [vm_compute; reflexivity|assumption|]. subst x5. rewrite E4. clear E4.
  set (j4 := swap_perm magic_mask_5 16 j5) in *.
  destruct (swap_step_ok magic_mask_4 8 x3 j4) as [E3 L3]; [vm_compute; reflexivity|assumption|]. subst x4. rewrite E3. clear E3.
  set (j3 := swap_perm magic_mask_4 8 j4) in *.
  destruct (swap_step_ok magic_mask_3 4 x2 j3) as [E2 L2]; [vm_compute; reflexivity|assumption|]. subst x3. rewrite E2. clear E2.
  set (j2 := swap_perm magic_mask_3 4 j3) in *.
  destruct (swap_step_ok magic_mask_2 2 x1 j2) as [E1 L1]; [vm_compute; reflexivity|assumption|]. subst x2. rewrite E1. clear E1.
  set (j1 := swap_perm magic_mask_2 2 j2) in *.
  destruct (swap_step_ok magic_mask_1 1 x j1) as [E0 L0]; [vm_compute; reflexivity|assumption|]. subst x1. rewrite E0. clear E0.
  f_equal.
  enough (H : (swap_perm magic_mask_1 1 j1 =? 63 - i)%nat = true) by (now apply Nat.eqb_eq).
  subst j1 j2 j3 j4 j5. clear - Hi.
  assert (Ht : forallb (fun i => (swap_perm magic_mask_1 1 (swap_perm magic_mask_2 2 (swap_perm magic_mask_3 4 (swap_perm magic_mask_4 8
     (swap_perm magic_mask_5 16 (if (i <? 32)%nat then i + 32 else i - 32))))) =? 63 - i)%nat) (seq 0 64) = true) by (vm_compute; reflexivity).
  rewrite forallb_forall in Ht. apply (Ht i). apply in_seq. lia.
Qed.
Lemma reverse_bits_lt x : x < W64 -> reverse_bits x < W64.
Proof.
  intros Hx. unfold reverse_bits, reverse_bytes. apply lor_lt; [|apply wrap_lt].
  apply (shiftr_lt _ 32). apply (swap_step_lt magic_mask_5 16). reflexivity.
Qed.
