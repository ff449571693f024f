(** Searching a word for the first place where the excess comes down to zero. *)
From Coq Require Import ZArith.
From Verif Require Import Base M_Word M_Bits M_Darray M_Rs M_Bp M_Paren P_Word P_Bits P_Rank P_Scan P_BpWord.
Local Open Scope nat_scope.

(** ** Lanes *)
Lemma pack_lxor l : forall m, bytes l -> bytes m -> length l = length m -> N.lxor (pack l) (pack m) = pack (map2 N.lxor l m).
Proof.
  induction l as [|b l IH]; intros [|c m] Hl Hm Hlen; try discriminate; [reflexivity|].
  inversion Hl; inversion Hm; subst. cbn [pack map2]. rewrite <- IH by (auto; cbn in Hlen; lia).
  apply tb_ext. intros i. rewrite tb_lxor, !tb_lane; auto.
  - destruct (i <? 8)%nat; now rewrite tb_lxor.
  - rewrite byte_iff. intros j Hj. now rewrite tb_lxor, !byte_high.
Qed.
Lemma map2_bytes (f : N -> N -> N) l : forall m, (forall b c, b < 256 -> c < 256 -> f b c < 256)%N -> bytes l -> bytes m -> bytes (map2 f l m).
Proof.
  induction l as [|b l IH]; intros [|c m] Hf Hl Hm; cbn [map2]; try constructor; inversion Hl; inversion Hm; subst; auto. now apply IH.
Qed.
Lemma nth_map2 {A B C} (f : A -> B -> C) l : forall m i da db dc, i < length l -> i < length m -> nth i (map2 f l m) dc = f (nth i l da) (nth i m db).
Proof. induction l as [|a l IH]; intros [|b m] [|i] da db dc H1 H2; cbn in *; try lia; [reflexivity|]. apply IH; lia. Qed.
Lemma tb_pack l : forall p, bytes l -> tb (pack l) p = tb (nth (p / 8) l 0%N) (p mod 8).
Proof.
  induction l as [|b l IH]; intros p Hl; cbn [pack].
  - destruct (p / 8); cbn [nth]; now rewrite !tb_of.
  - inversion Hl; subst. rewrite tb_lane by assumption. destruct (Nat.ltb_spec p 8).
    + rewrite Nat.div_small, Nat.mod_small by assumption. reflexivity.
    + replace p with ((p - 8) + 1 * 8) at 2 3 by lia. rewrite Nat.div_add, Nat.mod_add by lia. rewrite Nat.add_1_r. cbn [nth]. now apply IH.
Qed.
Lemma byte_lor b c : (b < 256 -> c < 256 -> N.lor b c < 256)%N.
Proof. rewrite !byte_iff. intros Hb Hc i Hi. rewrite tb_lor, Hb, Hc by assumption. reflexivity. Qed.
Lemma byte_lxor b c : (b < 256 -> c < 256 -> N.lxor b c < 256)%N.
Proof. rewrite !byte_iff. intros Hb Hc i Hi. rewrite tb_lxor, Hb, Hc by assumption. reflexivity. Qed.
Lemma byte_land b c : (b < 256 -> c < 256 -> N.land b c < 256)%N.
Proof. rewrite !byte_iff. intros Hb Hc i Hi. rewrite tb_land, Hb by assumption. reflexivity. Qed.

Lemma byte_of_pack l i : bytes l -> i < 8 -> byte_at (pack l) (i * 8) = Ok (nth i l 0%N).
Proof.
  intros Hl Hi. unfold byte_at. rewrite shr_ok by lia. cbn [bind]. rewrite (Nat.mul_comm i 8), pack_shiftr8 by assumption.
  rewrite pack_head by (now apply bytes_skipn). now rewrite hd_skipn.
Qed.

(** The comparison in one lane. *)
Definition leqb (x y : N) : N := N.land (N.shiftr (N.lxor (N.lor y 128 - N.land x 127) (N.lxor x y)) 7) 1.
Lemma leqb_01 x y : (leqb x y <= 1)%N.
Proof. unfold leqb. apply land_le_r. Qed.
Definition leqb_check (y : N) : bool := forallb (fun x => (leqb x y =? (if (x <=? y)%N then 1 else 0))%N) (map N.of_nat (seq 0 128)).
Lemma leqb_ok x y : (x < 128 -> y <= 8 -> leqb x y = if x <=? y then 1 else 0)%N.
Proof.
  intros Hx Hy. assert (Ht : forallb leqb_check (map N.of_nat (seq 0 9)) = true) by (vm_compute; reflexivity).
  rewrite forallb_forall in Ht. specialize (Ht y). assert (Hin : In y (map N.of_nat (seq 0 9))).
  { rewrite <- (N2Nat.id y). apply in_map, in_seq. lia. }
  specialize (Ht Hin). unfold leqb_check in Ht. rewrite forallb_forall in Ht. specialize (Ht x).
  apply N.eqb_eq, Ht. rewrite <- (N2Nat.id x). apply in_map, in_seq. lia.
Qed.
Lemma sub_lane x y : (x < 256 -> y < 256 -> N.land x 127 <= N.lor y 128 /\ N.lor y 128 - N.land x 127 < 256)%N.
Proof.
  intros Hx Hy. pose proof (land_le_r x 127) as H1. assert (H2 : (128 <= N.lor y 128)%N).
  { assert (Ht : forallb (fun y => (128 <=? N.lor y 128)%N) all_bytes = true) by (vm_compute; reflexivity). apply N.leb_le. exact (byte_forall _ Ht y Hy). }
  pose proof (byte_lor y 128 Hy ltac:(lia)). lia.
Qed.
Lemma leq_step_8_pack l m : bytes l -> bytes m -> length l = 8 -> length m = 8 -> leq_step_8 (pack l) (pack m) = pack (map2 leqb l m).
Proof.
  intros Hl Hm Ll Lm. unfold leq_step_8. change 7%N with (N.of_nat 7). rewrite N.shiftr_land. change (N.shiftr msbs_step_8 (N.of_nat 7)) with (pack (repeat 1%N 8)).
  change (wnot msbs_step_8) with (pack (repeat 127%N 8)). change msbs_step_8 with (pack (repeat 128%N 8)).
  assert (B128 : bytes (repeat 128%N 8)) by (cbn; repeat (apply Forall_cons || apply Forall_nil); reflexivity).
  assert (B127 : bytes (repeat 127%N 8)) by (cbn; repeat (apply Forall_cons || apply Forall_nil); reflexivity).
  rewrite pack_lor, (pack_land l), pack_lxor by (assumption || (rewrite ?repeat_length; lia)).
  assert (B1 : bytes (map2 N.lor m (repeat 128%N 8))) by (apply map2_bytes; [exact byte_lor|assumption..]).
  assert (B2 : bytes (map2 N.land l (repeat 127%N 8))) by (apply map2_bytes; [exact byte_land|assumption..]).
  destruct (eight l Ll) as (a0 & a1 & a2 & a3 & a4 & a5 & a6 & a7 & ->). destruct (eight m Lm) as (b0 & b1 & b2 & b3 & b4 & b5 & b6 & b7 & ->).
  unfold bytes in Hl, Hm. repeat match goal with H : Forall _ (_ :: _) |- _ => inversion H; clear H; subst end.
  destruct (pack_sub (map2 N.lor [b0; b1; b2; b3; b4; b5; b6; b7] (repeat 128%N 8)) (map2 N.land [a0; a1; a2; a3; a4; a5; a6; a7] (repeat 127%N 8))) as [Hsub Hle].
  { cbn [map2 repeat]. repeat (apply Forall2_cons || apply Forall2_nil); apply sub_lane; assumption. }
  assert (HW : (pack (map2 N.lor [b0; b1; b2; b3; b4; b5; b6; b7] (repeat 128%N 8)) < W64)%N).
  { apply bytes_word; [|reflexivity]. cbn [map2 repeat]. repeat (apply Forall_cons || apply Forall_nil); apply byte_lor; (assumption || reflexivity). }
  unfold wsub. replace (pack (map2 N.lor [b0; b1; b2; b3; b4; b5; b6; b7] (repeat 128%N 8)) + W64 - pack (map2 N.land [a0; a1; a2; a3; a4; a5; a6; a7] (repeat 127%N 8)))%N
    with ((pack (map2 N.lor [b0; b1; b2; b3; b4; b5; b6; b7] (repeat 128%N 8)) - pack (map2 N.land [a0; a1; a2; a3; a4; a5; a6; a7] (repeat 127%N 8))) + 1 * W64)%N by lia.
  unfold wrap. rewrite N.mod_add by discriminate. rewrite N.mod_small by lia. rewrite Hsub.
  rewrite pack_lxor; [|cbn [map2 repeat]; repeat (apply Forall_cons || apply Forall_nil); apply sub_lane; assumption
    |cbn [map2 repeat]; repeat (apply Forall_cons || apply Forall_nil); apply byte_lxor; assumption|reflexivity].
  rewrite pack_shiftr_land; [reflexivity|lia| |cbn; repeat (apply Forall_cons || apply Forall_nil); reflexivity|reflexivity].
  cbn [map2 repeat]. repeat (apply Forall_cons || apply Forall_nil); apply byte_lxor; (apply sub_lane; assumption) || (apply byte_lxor; assumption).
Qed.

(** The lowest lane that is not zero. *)
Lemma lsb_lanes l : length l <= 8 -> Forall (fun b => (b <= 1)%N) l ->
  lsb2 (pack l) = Ok None /\ (forall i, i < length l -> nth i l 0%N = 0%N) \/
  exists i, i < length l /\ lsb2 (pack l) = Ok (Some (8 * i)) /\ nth i l 0%N = 1%N /\ forall j, j < i -> nth j l 0%N = 0%N.
Proof.
  intros Hlen H1. assert (Hb : bytes l). { eapply Forall_impl; [|exact H1]. intros; cbn in *; lia. }
  rewrite Forall_forall in H1. assert (H1' : forall i, (nth i l 0 <= 1)%N). { intros i. destruct (Nat.lt_ge_cases i (length l)); [apply H1, nth_In; assumption|rewrite nth_overflow by assumption; lia]. }
  destruct (N.eq_dec (pack l) 0) as [E0|E0].
  - left. split; [rewrite E0; reflexivity|]. intros i Hi. specialize (H1' i). destruct (N.eq_dec (nth i l 0%N) 0) as [|Hn]; [assumption|].
    assert (Hx : tb (pack l) (8 * i) = true). { rewrite tb_pack by assumption. rewrite (Nat.mul_comm 8 i), Nat.div_mul, Nat.mod_mul by lia. replace (nth i l 0%N) with 1%N by lia. reflexivity. }
    rewrite E0, tb_of in Hx. discriminate.
  - right. destruct (lsb2_ok _ E0) as (p & Hp & Ht & Hmin). rewrite tb_pack in Ht by assumption.
    assert (Hv : nth (p / 8) l 0%N = 1%N /\ p mod 8 = 0).
    { specialize (H1' (p / 8)). destruct (N.eq_dec (nth (p / 8) l 0%N) 0) as [E1|]; [rewrite E1, tb_of in Ht; discriminate|].
      replace (nth (p / 8) l 0%N) with 1%N in * by lia. split; [reflexivity|]. destruct (p mod 8) as [|k]; [reflexivity|]. exfalso. clear - Ht. unfold tb in Ht. rewrite Nat2N.inj_succ in Ht.
      change 1%N with (2 * 0 + 1)%N in Ht. rewrite N.testbit_odd_succ in Ht by lia. rewrite N.bits_0 in Ht. discriminate. }
    destruct Hv as [Hv Hm]. exists (p / 8). pose proof (Nat.div_mod p 8 ltac:(lia)).
    split. { destruct (Nat.lt_ge_cases (p / 8) (length l)); [assumption|]. rewrite nth_overflow in Hv by assumption. discriminate. }
    split; [rewrite Hp; do 2 f_equal; lia|]. split; [assumption|]. intros j Hj. specialize (Hmin (8 * j) ltac:(lia)). rewrite tb_pack in Hmin by assumption.
    rewrite (Nat.mul_comm 8 j), Nat.div_mul, Nat.mod_mul in Hmin by lia. specialize (H1' j). destruct (N.eq_dec (nth j l 0%N) 0) as [|]; [assumption|].
    replace (nth j l 0%N) with 1%N in Hmin by lia. discriminate.
Qed.

(** Side by side. *)
Lemma gather_ok f (v : nat -> N) n : forall i acc, i + n <= 8 -> (forall j, j < 8 -> f j = Ok (v j) /\ (v j < 256)%N) -> acc = pack (map v (seq 0 i)) ->
  gather f n i acc = Ok (pack (map v (seq 0 (i + n)))).
Proof.
  induction n as [|n IH]; intros i acc Hn Hf Ha; cbn [gather]; [rewrite Nat.add_0_r, Ha; reflexivity|].
  destruct (Hf i) as [Hfi Hvi]; [lia|]. rewrite Hfi. cbn [bind]. rewrite shl_ok by lia. cbn [bind]. replace (i + S n) with (i + 1 + n) by lia. apply IH; [lia|assumption|].
  assert (Hb : forall k, k <= 8 -> bytes (map v (seq 0 k))). { intros k Hk. apply Forall_forall. intros b Hb. apply in_map_iff in Hb. destruct Hb as (j & <- & Hj). apply in_seq in Hj. apply Hf. lia. }
  apply tb_ext. intros p. rewrite tb_lor, tb_wrap, tb_shiftl, Ha, !tb_pack by (apply Hb; lia).
  assert (Hnth : forall k q, q < 8 -> nth q (map v (seq 0 k)) 0%N = if q <? k then v q else 0%N).
  { intros k q Hq. destruct (Nat.ltb_spec q k); [now apply nth_map_seq|apply nth_overflow; rewrite map_length, seq_length; assumption]. }
  pose proof (Nat.div_mod p 8 ltac:(lia)) as Hp. pose proof (Nat.mod_upper_bound p 8 ltac:(lia)).
  destruct (Nat.ltb_spec p 64); cbn [andb].
  - assert (p / 8 < 8) by (apply Nat.div_lt_upper_bound; lia). rewrite !Hnth by assumption.
    destruct (Nat.ltb_spec (p / 8) i), (Nat.ltb_spec (p / 8) (i + 1)), (Nat.leb_spec (i * 8) p); try lia; cbn [andb]; rewrite ?orb_false_r, ?tb_of; cbn [orb]; try reflexivity.
    + replace (p / 8) with i by lia. f_equal. lia.
    + apply byte_high; [assumption|lia].
  - assert (8 <= p / 8) by (apply Nat.div_le_lower_bound; lia). rewrite !nth_overflow by (rewrite map_length, seq_length; lia). rewrite !tb_of. reflexivity.
Qed.

(** ** Numbers in signed lanes *)
Local Open Scope Z_scope.
Fixpoint packZ (l : list Z) : Z := match l with [] => 0 | c :: l' => c + 256 * packZ l' end.
Lemma packZ_lanes l : forall i, (i < length l)%nat -> (forall j, (j <= i)%nat -> 0 <= nth j l 0 < 256) ->
  (packZ l mod 256 ^ Z.of_nat (length l)) / 256 ^ Z.of_nat i mod 256 = nth i l 0.
Proof.
  induction l as [|c l IH]; intros i Hi Hr; [cbn in Hi; lia|]. cbn [packZ length]. rewrite Nat2Z.inj_succ, Z.pow_succ_r by lia.
  pose proof (Hr 0%nat ltac:(lia)) as Hc. cbn [nth] in Hc. pose proof (Z.pow_pos_nonneg 256 (Z.of_nat (length l)) ltac:(lia) ltac:(lia)) as HM. set (M := 256 ^ Z.of_nat (length l)) in *. clearbody M.
  assert (E1 : (c + 256 * packZ l) mod (256 * M) = c + 256 * (packZ l mod M)).
  { symmetry. apply (Z.mod_unique_pos _ _ (packZ l / M)). - pose proof (Z.mod_pos_bound (packZ l) M HM). nia. - pose proof (Z.div_mod (packZ l) M ltac:(lia)). nia. }
  rewrite E1. destruct i as [|i].
  - cbn [nth]. change (256 ^ Z.of_nat 0) with 1. rewrite Z.div_1_r. rewrite Z.mul_comm, Z.mod_add by lia. apply Z.mod_small. assumption.
  - cbn [nth]. rewrite Nat2Z.inj_succ, Z.pow_succ_r by lia. rewrite <- Z.div_div by (try lia; apply Z.pow_pos_nonneg; lia).
    rewrite (Z.add_comm c), (Z.mul_comm 256 (_ mod M)), Z.div_add_l by lia. rewrite (Z.div_small c) by assumption. rewrite Z.add_0_r. apply IH; [cbn in Hi; lia|]. intros j Hj. exact (Hr (S j) ltac:(lia)).
Qed.
Lemma unpackZ n : forall x i, (i < n)%nat -> Z.of_N (nth i (unpack n x) 0%N) = Z.of_N x / 256 ^ Z.of_nat i mod 256.
Proof.
  induction n as [|n IH]; intros x i Hi; [lia|]. cbn [unpack]. destruct i as [|i]; cbn [nth].
  - change (256 ^ Z.of_nat 0) with 1. rewrite Z.div_1_r, N2Z.inj_mod. reflexivity.
  - rewrite IH by lia. rewrite N2Z.inj_div. change (Z.of_N 256) with 256. rewrite Z.div_div by (try lia; apply Z.pow_pos_nonneg; lia). rewrite Nat2Z.inj_succ, Z.pow_succ_r by lia. reflexivity.
Qed.
Lemma of_wrap x : Z.of_N (wrap x) = Z.of_N x mod 2 ^ 64.
Proof. unfold wrap. now rewrite N2Z.inj_mod. Qed.
Lemma pack_packZ l : Z.of_N (pack l) = packZ (map Z.of_N l).
Proof. induction l as [|b l IH]; [reflexivity|]. cbn [pack map packZ]. lia. Qed.

(** The cumulative excesses: x before lane 0, x + d0 before lane 1, ... *)
Definition cums (x : Z) (d : list Z) : list Z :=
  match d with
  | [d0; d1; d2; d3; d4; d5; d6; d7] => [x; x + d0; x + d0 + d1; x + d0 + d1 + d2; x + d0 + d1 + d2 + d3; x + d0 + d1 + d2 + d3 + d4;
      x + d0 + d1 + d2 + d3 + d4 + d5; x + d0 + d1 + d2 + d3 + d4 + d5 + d6]
  | _ => []
  end.
Lemma mul_cums x d : length d = 8%nat -> ((x + 256 * packZ d) * Z.of_N ones_step_8) mod 2 ^ 64 = packZ (cums x d) mod 2 ^ 64.
Proof.
  intros H. destruct (eight d H) as (d0 & d1 & d2 & d3 & d4 & d5 & d6 & d7 & ->). unfold cums, packZ, ones_step_8.
  set (K := (d0+d1+d2+d3+d4+d5+d6+d7) + 256 * ((d1+d2+d3+d4+d5+d6+d7) + 256 * ((d2+d3+d4+d5+d6+d7) + 256 * ((d3+d4+d5+d6+d7) + 256 * ((d4+d5+d6+d7) + 256 * ((d5+d6+d7) + 256 * ((d6+d7) + 256 * d7))))))).
  match goal with |- ?a mod _ = ?b mod _ => replace a with (b + K * 2 ^ 64) by (unfold K; cbn [Z.of_N]; ring) end.
  apply Z.mod_add. lia.
Qed.
(** A word whose value is known modulo 2^64. *)
Lemma word_lanes w l : (w < W64)%N -> length l = 8%nat -> Z.of_N w = packZ l mod 2 ^ 64 ->
  exists us, w = pack us /\ bytes us /\ length us = 8%nat /\ forall i, (i < 8)%nat -> (forall j, (j <= i)%nat -> 0 <= nth j l 0 < 256) -> Z.of_N (nth i us 0%N) = nth i l 0.
Proof.
  intros Hw Hl E1. exists (unpack 8 w). split; [symmetry; apply pack_unpack; exact Hw|]. split; [apply unpack_bytes|]. split; [apply unpack_length|].
  intros i Hi Hr. rewrite unpackZ by assumption. rewrite E1. change (2 ^ 64) with (256 ^ Z.of_nat 8). rewrite <- Hl. apply packZ_lanes; [lia|assumption].
Qed.
Local Close Scope Z_scope.

(** ** The first lane in which the excess comes down to zero *)
Section Hit.
  Variables (F : nat -> bool) (x : Z) (us ms : list N).
  Hypothesis Hx : (1 <= x <= 64)%Z.
  Hypothesis Hus : bytes us /\ length us = 8.
  Hypothesis Hms : length ms = 8 /\ forall i, i < 8 -> (nth i ms 0 <= 8)%N.
  Hypothesis Hval : forall i, i < 8 -> (forall j, j <= i -> (0 <= x + E F (8 * j) < 256)%Z) -> Z.of_N (nth i us 0%N) = (x + E F (8 * i))%Z.
  Hypothesis Hmin : forall i j, i < 8 -> j <= 8 -> (- Z.of_N (nth i ms 0%N) <= E F (8 * i + j) - E F (8 * i))%Z.

  Lemma E_up_to n : n <= 64 -> (x + E F n <= 128)%Z /\ (n <= 56 -> (x + E F n <= 120)%Z).
  Proof. intros H. pose proof (E_bound F n). split; lia. Qed.
  Lemma lane_val i : i < 8 -> (forall j, j <= 8 * i -> (0 < x + E F j)%Z) -> Z.of_N (nth i us 0%N) = (x + E F (8 * i))%Z /\ (1 <= x + E F (8 * i) <= 120)%Z.
  Proof.
    intros Hi H. destruct (E_up_to (8 * i) ltac:(lia)) as [_ H1]. pose proof (H (8 * i) (le_n _)). split; [|lia]. apply Hval; [assumption|]. intros j Hj.
    destruct (E_up_to (8 * j) ltac:(lia)) as [_ H2]. pose proof (H (8 * j) ltac:(lia)). lia.
  Qed.
  Lemma no_hit n : n <= 8 -> (forall i, i < n -> leqb (nth i us 0%N) (nth i ms 0%N) = 0%N) -> forall j, j <= 8 * n -> (0 < x + E F j)%Z.
  Proof.
    induction n as [|n IH]; intros Hn H j Hj.
    - replace j with 0 by lia. rewrite E_0. lia.
    - assert (IH' : forall j, j <= 8 * n -> (0 < x + E F j)%Z) by (apply IH; [lia|intros i Hi; apply H; lia]). destruct (Nat.le_gt_cases j (8 * n)) as [Hle|Hgt]; [now apply IH'|].
      destruct (lane_val n ltac:(lia) IH') as [Hv Hr]. specialize (H n ltac:(lia)). rewrite leqb_ok in H by (try apply Hms; lia).
      destruct (N.leb_spec (nth n us 0%N) (nth n ms 0%N)); [discriminate|]. specialize (Hmin n (j - 8 * n) ltac:(lia) ltac:(lia)). replace (8 * n + (j - 8 * n)) with j in Hmin by lia. lia.
  Qed.
  Lemma hit :
    lsb2 (leq_step_8 (pack us) (pack ms)) = Ok None /\ (forall j, j <= 64 -> (0 < x + E F j)%Z) \/
    exists i, i < 8 /\ lsb2 (leq_step_8 (pack us) (pack ms)) = Ok (Some (8 * i)) /\ Z.of_N (nth i us 0%N) = (x + E F (8 * i))%Z /\
      (1 <= x + E F (8 * i) <= Z.of_N (nth i ms 0%N))%Z /\ (forall j, j <= 8 * i -> (0 < x + E F j)%Z).
  Proof.
    destruct Hus as [Bu Lu], Hms as [Lm Bm]. assert (Bms : bytes ms). { apply Forall_forall. intros b Hb. apply (In_nth _ _ 0%N) in Hb. destruct Hb as (i & Hi & <-). specialize (Bm i ltac:(lia)). lia. }
    rewrite leq_step_8_pack by assumption. assert (Hn : forall i, i < 8 -> nth i (map2 leqb us ms) 0%N = leqb (nth i us 0%N) (nth i ms 0%N)) by (intros i Hi; apply nth_map2; lia).
    assert (Hlen : length (map2 leqb us ms) = 8) by (rewrite map2_length; lia).
    destruct (lsb_lanes (map2 leqb us ms)) as [[E1 H1]|(i & Hi & E1 & H1 & H2)]; [lia| | |].
    - apply Forall_forall. intros b Hb. apply (In_nth _ _ 0%N) in Hb. destruct Hb as (i & Hi & <-). rewrite Hn by lia. apply leqb_01.
    - left. split; [exact E1|]. apply (no_hit 8 (le_n _)). intros i Hi. rewrite <- Hn by assumption. apply H1. lia.
    - right. exists i. rewrite Hlen in Hi. split; [assumption|]. split; [exact E1|].
      assert (Hbefore : forall j, j <= 8 * i -> (0 < x + E F j)%Z). { apply no_hit; [lia|]. intros j Hj. rewrite <- Hn by lia. now apply H2. }
      destruct (lane_val i Hi Hbefore) as [Hv Hr]. rewrite Hn in H1 by assumption. rewrite leqb_ok in H1 by (try apply Bm; lia).
      destruct (N.leb_spec (nth i us 0%N) (nth i ms 0%N)); [|discriminate]. split; [exact Hv|]. split; [lia|exact Hbefore].
  Qed.
End Hit.

(** ** Tables *)
(** The bits of a byte from the highest down, closing counted as opening. *)
Definition back (c : N) (i : nat) : bool := negb (tb c (7 - i)).
Definition row_check (g : nat -> bool) (m : Z) (row : list nat) : bool :=
  (length row =? 9) && (0 <=? m)%Z && (m <=? 8)%Z && forallb (fun j => (- m <=? E g j)%Z) (seq 0 9) &&
  forallb (fun e => if (Z.of_nat e <=? m)%Z
                    then let b := nth e row 0 in (1 <=? b) && (b <=? 8) && (Z.of_nat e + E g b =? 0)%Z && forallb (fun j => (0 <? Z.of_nat e + E g j)%Z) (seq 0 b)
                    else true) (seq 1 8).
Lemma row_ok g m row : row_check g m row = true ->
  (0 <= m <= 8)%Z /\ (forall j, j <= 8 -> (- m <= E g j)%Z) /\
  forall e, (1 <= e <= m)%Z -> exists b, get row (Z.to_nat e) = Ok b /\ 1 <= b <= 8 /\ (e + E g b = 0)%Z /\ forall j, j < b -> (0 < e + E g j)%Z.
Proof.
  unfold row_check. rewrite !andb_true_iff, !forallb_forall. intros ((((H1 & H2) & H3) & H4) & H5). apply Nat.eqb_eq in H1. apply Z.leb_le in H2, H3. split; [lia|]. split.
  - intros j Hj. apply Z.leb_le, H4, in_seq. lia.
  - intros e He. specialize (H5 (Z.to_nat e)). rewrite in_seq in H5. specialize (H5 ltac:(lia)). rewrite Z2Nat.id in H5 by lia. destruct (Z.leb_spec e m); [|lia]. cbv zeta in H5.
    rewrite !andb_true_iff, forallb_forall in H5. destruct H5 as (((B1 & B2) & B3) & B4). apply Nat.leb_le in B1, B2. apply Z.eqb_eq in B3. exists (nth (Z.to_nat e) row 0).
    split; [apply get_nth; lia|]. split; [lia|]. split; [assumption|]. intros j Hj. apply Z.ltb_lt, B4, in_seq. lia.
Qed.
Lemma fwd_row c : (c < 256)%N -> row_check (tb c) (fwd_min c) (fwd_pos c) = true.
Proof. apply (byte_forall (fun c => row_check (tb c) (fwd_min c) (fwd_pos c))). vm_compute. reflexivity. Qed.
Lemma bwd_row c : (c < 256)%N -> row_check (back c) (bwd_min c) (bwd_pos c) = true.
Proof. apply (byte_forall (fun c => row_check (back c) (bwd_min c) (bwd_pos c))). vm_compute. reflexivity. Qed.
Lemma exc_row c : (c < 256)%N -> (E (tb c) 8 = 2 * Z.of_nat (ones8 c) - 8 /\ E (back c) 8 = 8 - 2 * Z.of_nat (ones8 c))%Z.
Proof.
  intros H. pose proof (byte_forall (fun c => ((E (tb c) 8 =? 2 * Z.of_nat (ones8 c) - 8) && (E (back c) 8 =? 8 - 2 * Z.of_nat (ones8 c)))%Z) ltac:(vm_compute; reflexivity) c H) as H1.
  apply andb_true_iff in H1. destruct H1 as [H1 H2]. apply Z.eqb_eq in H1, H2. now split.
Qed.

(** ** One word, from the lowest bit up *)
(** What a search in a word finds: the number of steps after which the excess x has come down to 0. *)
Definition steps_ok (F : nat -> bool) (x : Z) (r : option nat) : Prop :=
  match r with
  | Some j => 1 <= j <= 64 /\ (x + E F j = 0)%Z /\ forall k, k < j -> (0 < x + E F k)%Z
  | None => forall k, k <= 64 -> (0 < x + E F k)%Z
  end.

Section Bytes.
  Variables (F : nat -> bool) (g : nat -> nat -> bool).
  Hypothesis HF : forall i j, i < 8 -> j < 8 -> F (8 * i + j) = g i j.
  Lemma E_lane i j : i < 8 -> j <= 8 -> E F (8 * i + j) = (E F (8 * i) + E (g i) j)%Z.
  Proof. intros Hi Hj. rewrite E_add. f_equal. apply E_ext. intros q Hq. apply HF; lia. Qed.
  Lemma E_cums x d : d = map (fun i => E (g i) 8) (seq 0 8) -> forall i, i < 8 -> nth i (cums x d) 0%Z = (x + E F (8 * i))%Z.
  Proof.
    intros Hd i Hi. assert (Hs : forall i, i < 8 -> E F (8 * S i) = (E F (8 * i) + E (g i) 8)%Z). { intros k Hk. replace (8 * S k) with (8 * k + 8) by lia. now apply E_lane. }
    subst d. cbn [map seq cums]. pose proof (Hs 0) as S0. pose proof (Hs 1) as S1. pose proof (Hs 2) as S2. pose proof (Hs 3) as S3. pose proof (Hs 4) as S4. pose proof (Hs 5) as S5. pose proof (Hs 6) as S6.
    assert (E F (8 * 0) = 0)%Z by apply E_0.
    do 8 (destruct i as [|i]; [cbn [nth]; lia|]). lia.
  Qed.
End Bytes.

Lemma counts_d l : map (fun b => (2 * Z.of_N (N.of_nat (ones8 b)) - 8)%Z) l = map (fun z => (2 * z - 8)%Z) (map Z.of_N (map (fun b => N.of_nat (ones8 b)) l)).
Proof. now rewrite !map_map. Qed.
Lemma packZ_counts c : length c = 8 -> packZ (map (fun z => (2 * z - 8)%Z) c) = (2 * packZ c - 8 * Z.of_N ones_step_8)%Z.
Proof. intros H. destruct (eight c H) as (c0 & c1 & c2 & c3 & c4 & c5 & c6 & c7 & ->). unfold ones_step_8. cbn [map packZ Z.of_N]. ring. Qed.
Lemma packZ_opp c : packZ (map Z.opp c) = (- packZ c)%Z.
Proof. induction c as [|z c IH]; [reflexivity|]. cbn [map packZ]. rewrite IH. ring. Qed.
Lemma of_wsub x y : (y <= W64)%N -> Z.of_N (wsub x y) = ((Z.of_N x - Z.of_N y) mod 2 ^ 64)%Z.
Proof.
  intros H. unfold wsub. rewrite of_wrap. rewrite N2Z.inj_sub by lia. rewrite N2Z.inj_add. change (Z.of_N W64) with (2 ^ 64)%Z.
  replace (Z.of_N x + 2 ^ 64 - Z.of_N y)%Z with (Z.of_N x - Z.of_N y + 1 * 2 ^ 64)%Z by ring. apply Z.mod_add. lia.
Qed.
(** The cumulative excesses as the code computes them. *)
Lemma cum_word (sub : bool) x counts d : (1 <= x <= 64)%Z -> length counts = 8 -> bytes counts -> d = map (fun z => (2 * Z.of_N z - 8)%Z) counts ->
  let s := wrap (N.shiftl (wsub (wmul 2 (pack counts)) (wmul 8 ones_step_8)) 8) in
  let cum := wmul (if sub then wsub (Z.to_N (x mod Z.of_N W64)) s else wadd (Z.to_N (x mod Z.of_N W64)) s) ones_step_8 in
  (cum < W64)%N /\ Z.of_N cum = (packZ (cums x (if sub then map Z.opp d else d)) mod 2 ^ 64)%Z.
Proof.
  intros Hx Hl Hb Hd s cum. split; [apply wrap_lt|].
  assert (Hs : (Z.of_N s mod 2 ^ 64 = (256 * packZ d) mod 2 ^ 64)%Z).
  { unfold s. rewrite of_wrap, Z.mod_mod by lia. change 8%N with (N.of_nat 8) at 2. rewrite N.shiftl_mul_pow2, N2Z.inj_mul, of_wsub by (apply N.lt_le_incl, wrap_lt).
    change (Z.of_N (2 ^ N.of_nat 8)) with 256%Z. rewrite Z.mul_mod_idemp_l by lia. unfold wmul. rewrite !of_wrap. rewrite !N2Z.inj_mul. change (Z.of_N 2) with 2%Z. change (Z.of_N 8) with 8%Z.
    rewrite pack_packZ. rewrite <- (map_map Z.of_N (fun z => (2 * z - 8)%Z)) in Hd. rewrite Hd, packZ_counts by (now rewrite map_length).
    rewrite <- Z.mul_mod_idemp_l by lia. rewrite <- Zminus_mod. rewrite Z.mul_mod_idemp_l by lia. f_equal. ring. }
  unfold cum, wmul. rewrite of_wrap, N2Z.inj_mul.
  assert (Ex : Z.of_N (Z.to_N (x mod Z.of_N W64)) = x). { change (Z.of_N W64) with (2 ^ 64)%Z. rewrite Z.mod_small by lia. apply Z2N.id. lia. }
  rewrite <- mul_cums by (destruct sub; subst d; rewrite !map_length; exact Hl).
  rewrite <- Z.mul_mod_idemp_l by lia. symmetry. rewrite <- Z.mul_mod_idemp_l by lia. do 2 f_equal. destruct sub.
  - rewrite of_wsub by (apply N.lt_le_incl, wrap_lt). rewrite Ex, Z.mod_mod by lia. rewrite packZ_opp. rewrite <- Zminus_mod_idemp_r, Hs, Zminus_mod_idemp_r. f_equal. ring.
  - unfold wadd. rewrite of_wrap, N2Z.inj_add, Ex, Z.mod_mod by lia. rewrite <- (Z.add_mod_idemp_r x (Z.of_N s)), Hs, Z.add_mod_idemp_r by lia. reflexivity.
Qed.

Lemma close_word_ok w x : (w < W64)%N -> (1 <= x <= 64)%Z ->
  exists r, find_close_in_word w (byte_counts w) x = Ok (option_map (fun j => j - 1) r) /\ steps_ok (tb w) x r.
Proof.
  intros Hw Hx. destruct (word_bytes w Hw) as (l & -> & Bl & Ll). unfold find_close_in_word. rewrite byte_counts_pack by assumption.
  assert (Bn : forall i, i < 8 -> (nth i l 0 < 256)%N). { intros i Hi. unfold bytes in Bl. rewrite Forall_forall in Bl. apply Bl, nth_In. lia. }
  set (counts := map (fun b => N.of_nat (ones8 b)) l).
  assert (Bc : bytes counts). { apply Forall_forall. intros b Hb. apply in_map_iff in Hb. destruct Hb as (c & <- & _). pose proof (ones8_le c). lia. }
  set (d := map (fun i => E (tb (nth i l 0%N)) 8) (seq 0 8)).
  destruct (cum_word false x counts d Hx) as [Hlt Hcum]; [unfold counts; now rewrite map_length|assumption| |].
  { unfold d, counts. rewrite map_map. clear - Ll Bn. pose proof (fun i Hi => proj1 (exc_row _ (Bn i Hi))) as Hr. destruct (eight l Ll) as (b0 & b1 & b2 & b3 & b4 & b5 & b6 & b7 & ->).
    pose proof (Hr 0 ltac:(lia)) as R0. pose proof (Hr 1 ltac:(lia)) as R1. pose proof (Hr 2 ltac:(lia)) as R2. pose proof (Hr 3 ltac:(lia)) as R3.
    pose proof (Hr 4 ltac:(lia)) as R4. pose proof (Hr 5 ltac:(lia)) as R5. pose proof (Hr 6 ltac:(lia)) as R6. pose proof (Hr 7 ltac:(lia)) as R7.
    cbn [nth] in R0, R1, R2, R3, R4, R5, R6, R7. cbn [map seq nth]. rewrite R0, R1, R2, R3, R4, R5, R6, R7, !nat_N_Z. reflexivity. }
  cbv zeta in Hlt, Hcum. cbn match in Hlt, Hcum. set (cum := wmul _ _) in *. clearbody cum.
  assert (HF : forall i j, i < 8 -> j < 8 -> tb (pack l) (8 * i + j) = tb (nth i l 0%N) j).
  { intros i j Hi Hj. rewrite tb_pack by assumption. rewrite (Nat.mul_comm 8 i), Nat.div_add_l, (Nat.add_comm (i * 8)), Nat.mod_add, Nat.div_small, Nat.mod_small by lia. now rewrite Nat.add_0_r. }
  destruct (word_lanes cum (cums x d) Hlt) as (us & -> & Bu & Lu & Hus); [reflexivity|assumption|].
  rewrite (gather_ok _ (fun i => Z.to_N (fwd_min (nth i l 0%N))) 8 0 0%N) with (3 := eq_refl); [|lia|].
  2:{ intros j Hj. rewrite byte_of_pack by assumption. cbn [bind]. split; [reflexivity|]. destruct (row_ok _ _ _ (fwd_row _ (Bn j Hj))) as (R & _). lia. }
  cbn [bind Nat.add]. set (ms := map (fun i => Z.to_N (fwd_min (nth i l 0%N))) (seq 0 8)).
  assert (Hms : forall i, i < 8 -> nth i ms 0%N = Z.to_N (fwd_min (nth i l 0%N))) by (intros i Hi; now apply (nth_map_seq (fun i => Z.to_N (fwd_min (nth i l 0%N))))).
  destruct (hit (tb (pack l)) x us ms Hx (conj Bu Lu)) as [[-> H]|(i & Hi & -> & H1 & H2 & H3)].
  - split; [unfold ms; now rewrite map_length|]. intros i Hi. rewrite Hms by assumption. destruct (row_ok _ _ _ (fwd_row _ (Bn i Hi))) as (R & _). lia.
  - intros i Hi Hr. rewrite Hus; [apply (E_cums _ (fun i => tb (nth i l 0%N)) HF); [reflexivity|assumption]|assumption|].
    intros j Hj. rewrite (E_cums _ (fun i => tb (nth i l 0%N)) HF) by (reflexivity || lia). now apply Hr.
  - intros i j Hi Hj. rewrite Hms by assumption. destruct (row_ok _ _ _ (fwd_row _ (Bn i Hi))) as (R & R2 & _). rewrite (E_lane _ (fun i => tb (nth i l 0%N)) HF) by assumption. specialize (R2 j Hj). lia.
  - cbn [bind]. exists None. split; [reflexivity|exact H].
  - cbn [bind]. rewrite (Nat.mul_comm 8 i), !byte_of_pack by assumption. cbn [bind]. rewrite Hms in H2 by assumption.
    destruct (row_ok _ _ _ (fwd_row _ (Bn i Hi))) as (R & _ & R3). destruct (R3 (x + E (tb (pack l)) (8 * i))%Z) as (b & Eb & Hb & Hb0 & Hbj); [lia|].
    rewrite <- H1, <- N_nat_Z, Nat2Z.id in Eb. rewrite Eb. cbn [bind]. exists (Some (8 * i + b)). split; [cbn [option_map]; do 2 f_equal; lia|]. split; [lia|].
    split; [rewrite (E_lane _ (fun i => tb (nth i l 0%N)) HF) by lia; lia|]. intros k Hk. destruct (Nat.le_gt_cases k (8 * i)); [now apply H3|].
    specialize (Hbj (k - 8 * i) ltac:(lia)). replace k with (8 * i + (k - 8 * i)) by lia. rewrite (E_lane _ (fun i => tb (nth i l 0%N)) HF) by lia. lia.
Qed.

(** ** One word, from the highest bit down *)
Lemma reverse_bytes_pack l : bytes l -> length l = 8 -> reverse_bytes (pack l) = pack (rev l).
Proof.
  intros Bl Ll. assert (Hx : (pack l < W64)%N) by (now apply bytes_word). assert (Br : bytes (rev l)) by (now apply Forall_rev).
  assert (Hrev : (pack (rev l) < W64)%N) by (apply bytes_word; [assumption|now rewrite rev_length]).
  assert (Hlt : (reverse_bytes (pack l) < W64)%N).
  { unfold reverse_bytes. apply lor_lt; [|apply wrap_lt]. change 32%N with (N.of_nat 32). apply shiftr_lt. apply lor_lt; [|apply wrap_lt]. apply land_lt_r. reflexivity. }
  apply tb_ext64; [assumption..|]. intros i Hi. unfold reverse_bytes. set (x := pack l) in *.
  change (N.lor (N.land (N.shiftr x 8) magic_mask_4) (wrap (N.shiftl (N.land x magic_mask_4) 8))) with (swap_step magic_mask_4 8 x).
  set (x4 := swap_step magic_mask_4 8 x).
  change (N.lor (N.land (N.shiftr x4 16) magic_mask_5) (wrap (N.shiftl (N.land x4 magic_mask_5) 16))) with (swap_step magic_mask_5 16 x4).
  set (x5 := swap_step magic_mask_5 16 x4).
  assert (H5 : (x5 < W64)%N) by (apply swap_step_lt; reflexivity).
  change 32%N with (N.of_nat 32). rewrite tb_lor, tb_shiftr, tb_wrap, tb_shiftl.
  set (j5 := if (i <? 32)%nat then (i + 32)%nat else (i - 32)%nat).
  assert (E5 : tb x5 (i + 32) || ((i <? 64)%nat && ((32 <=? i)%nat && tb x5 (i - 32))) = tb x5 j5 /\ (j5 < 64)%nat).
  { subst j5. destruct (Nat.ltb_spec i 32), (Nat.leb_spec 32 i), (Nat.ltb_spec i 64); try lia.
    rewrite tb_high by (assumption || lia). split; [reflexivity|lia]. }
  destruct E5 as [-> L5].
  destruct (swap_step_ok magic_mask_5 16 x4 j5) as [E4 L4]; [vm_compute; reflexivity|assumption|]. subst x5. rewrite E4. clear E4.
  set (j4 := swap_perm magic_mask_5 16 j5) in *.
  destruct (swap_step_ok magic_mask_4 8 x j4) as [E3 L3]; [vm_compute; reflexivity|assumption|]. subst x4. rewrite E3. clear E3.
  assert (Hj : swap_perm magic_mask_4 8 j4 = 8 * (7 - i / 8) + i mod 8).
  { apply Nat.eqb_eq. subst j4 j5. clear - Hi.
    assert (Ht : forallb (fun i => (swap_perm magic_mask_4 8 (swap_perm magic_mask_5 16 (if (i <? 32)%nat then i + 32 else i - 32)) =? 8 * (7 - i / 8) + i mod 8)%nat) (seq 0 64) = true) by (vm_compute; reflexivity).
    rewrite forallb_forall in Ht. apply (Ht i). apply in_seq. lia. }
  rewrite Hj. unfold x. rewrite !tb_pack by assumption. pose proof (Nat.mod_upper_bound i 8 ltac:(lia)). assert (i / 8 < 8) by (apply Nat.div_lt_upper_bound; lia).
  rewrite (Nat.mul_comm 8 (7 - i / 8)), Nat.div_add_l, (Nat.add_comm (_ * 8)), Nat.mod_add, (Nat.div_small (i mod 8)), (Nat.mod_small (i mod 8)) by lia.
  rewrite rev_nth by lia. rewrite Ll. f_equal. f_equal. lia.
Qed.

Lemma open_word_ok w x : (w < W64)%N -> (1 <= x <= 64)%Z ->
  exists r, find_open_in_word w (byte_counts w) x = Ok (option_map (fun j => 64 - j) r) /\ steps_ok (fun i => negb (tb w (63 - i))) x r.
Proof.
  intros Hw Hx. destruct (word_bytes w Hw) as (l & -> & Bl & Ll). unfold find_open_in_word. rewrite byte_counts_pack by assumption.
  assert (Bn : forall i, i < 8 -> (nth (7 - i) l 0 < 256)%N). { intros i Hi. unfold bytes in Bl. rewrite Forall_forall in Bl. apply Bl, nth_In. lia. }
  set (counts := map (fun b => N.of_nat (ones8 b)) l).
  assert (Bc : bytes counts). { apply Forall_forall. intros b Hb. apply in_map_iff in Hb. destruct Hb as (c & <- & _). pose proof (ones8_le c). lia. }
  assert (Lc : length counts = 8) by (unfold counts; now rewrite map_length).
  rewrite reverse_bytes_pack by assumption.
  set (F := fun i => negb (tb (pack l) (63 - i))). set (g := fun i => back (nth (7 - i) l 0%N)).
  set (d := map (fun i => E (g i) 8) (seq 0 8)).
  destruct (cum_word true x (rev counts) (map Z.opp d) Hx) as [Hlt Hcum]; [now rewrite rev_length|now apply Forall_rev| |].
  { unfold d, counts, g. rewrite map_map. rewrite <- map_rev, map_map. clear - Ll Bn. pose proof (fun i Hi => proj2 (exc_row _ (Bn i Hi))) as Hr. destruct (eight l Ll) as (b0 & b1 & b2 & b3 & b4 & b5 & b6 & b7 & ->).
    pose proof (Hr 0 ltac:(lia)) as R0. pose proof (Hr 1 ltac:(lia)) as R1. pose proof (Hr 2 ltac:(lia)) as R2. pose proof (Hr 3 ltac:(lia)) as R3.
    pose proof (Hr 4 ltac:(lia)) as R4. pose proof (Hr 5 ltac:(lia)) as R5. pose proof (Hr 6 ltac:(lia)) as R6. pose proof (Hr 7 ltac:(lia)) as R7.
    cbn [nth Nat.sub] in R0, R1, R2, R3, R4, R5, R6, R7. cbn [map seq nth Nat.sub rev app]. rewrite R0, R1, R2, R3, R4, R5, R6, R7, !nat_N_Z. repeat (apply (f_equal2 cons); [lia|]). reflexivity. }
  cbv zeta in Hlt, Hcum. cbn match in Hlt, Hcum. set (cum := wmul _ _) in *. clearbody cum.
  assert (Hdd : map Z.opp (map Z.opp d) = d). { rewrite map_map. rewrite <- (map_id d) at 2. apply map_ext. intros z. lia. }
  rewrite Hdd in Hcum.
  assert (HF : forall i j, i < 8 -> j < 8 -> F (8 * i + j) = g i j).
  { intros i j Hi Hj. unfold F, g, back. f_equal. rewrite tb_pack by assumption. replace (63 - (8 * i + j)) with ((7 - i) * 8 + (7 - j)) by lia.
    rewrite Nat.div_add_l, (Nat.add_comm (_ * 8)), Nat.mod_add, Nat.div_small, Nat.mod_small by lia. now rewrite Nat.add_0_r. }
  destruct (word_lanes cum (cums x d) Hlt) as (us & -> & Bu & Lu & Hus); [reflexivity|assumption|].
  assert (Hbyte : forall i, i < 8 -> byte_at (pack l) (64 - i * 8 - 8) = Ok (nth (7 - i) l 0%N)). { intros i Hi. replace (64 - i * 8 - 8) with ((7 - i) * 8) by lia. apply byte_of_pack; [assumption|lia]. }
  rewrite (gather_ok _ (fun i => Z.to_N (bwd_min (nth (7 - i) l 0%N))) 8 0 0%N) with (3 := eq_refl); [|lia|].
  2:{ intros j Hj. rewrite Hbyte by assumption. cbn [bind]. split; [reflexivity|]. destruct (row_ok _ _ _ (bwd_row _ (Bn j Hj))) as (R & _). lia. }
  cbn [bind Nat.add]. set (ms := map (fun i => Z.to_N (bwd_min (nth (7 - i) l 0%N))) (seq 0 8)).
  assert (Hms : forall i, i < 8 -> nth i ms 0%N = Z.to_N (bwd_min (nth (7 - i) l 0%N))) by (intros i Hi; now apply (nth_map_seq (fun i => Z.to_N (bwd_min (nth (7 - i) l 0%N))))).
  destruct (hit F x us ms Hx (conj Bu Lu)) as [[-> H]|(i & Hi & -> & H1 & H2 & H3)].
  - split; [unfold ms; now rewrite map_length|]. intros i Hi. rewrite Hms by assumption. destruct (row_ok _ _ _ (bwd_row _ (Bn i Hi))) as (R & _). lia.
  - intros i Hi Hr. rewrite Hus; [apply (E_cums _ g HF); [reflexivity|assumption]|assumption|].
    intros j Hj. rewrite (E_cums _ g HF) by (reflexivity || lia). now apply Hr.
  - intros i j Hi Hj. rewrite Hms by assumption. destruct (row_ok _ _ _ (bwd_row _ (Bn i Hi))) as (R & R2 & _). rewrite (E_lane _ g HF) by assumption. unfold g. specialize (R2 j Hj). lia.
  - cbn [bind]. exists None. split; [reflexivity|exact H].
  - cbn [bind]. rewrite (Nat.mul_comm 8 i), Hbyte, !byte_of_pack by assumption. cbn [bind]. rewrite Hms in H2 by assumption.
    destruct (row_ok _ _ _ (bwd_row _ (Bn i Hi))) as (R & _ & R3). destruct (R3 (x + E F (8 * i))%Z) as (b & Eb & Hb & Hb0 & Hbj); [lia|].
    rewrite <- H1, <- N_nat_Z, Nat2Z.id in Eb. rewrite Eb. cbn [bind]. exists (Some (8 * i + b)). split; [cbn [option_map]; do 2 f_equal; lia|]. split; [lia|].
    split; [rewrite (E_lane _ g HF) by lia; unfold g; lia|]. intros k Hk. destruct (Nat.le_gt_cases k (8 * i)); [now apply H3|].
    specialize (Hbj (k - 8 * i) ltac:(lia)). replace k with (8 * i + (k - 8 * i)) by lia. rewrite (E_lane _ g HF) by lia. unfold g. lia.
Qed.
