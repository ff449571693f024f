(** Reading bit vectors. *)
From Verif Require Import Base M_Word S_Bits P_Word M_Bits P_Bits P_Rank.
Local Open Scope nat_scope.

(** r is the field of len bits at pos. *)
Definition field (ws : list N) (pos len : nat) (r : N) : Prop := forall i, tb r i = (i <? len) && bitat ws (pos + i).
Lemma field_unique ws pos len r r' : field ws pos len r -> field ws pos len r' -> r = r'.
Proof. intros H H'. apply tb_ext. intros i. now rewrite H, H'. Qed.
Lemma field_lt ws pos len r : field ws pos len r -> (r < 2 ^ N.of_nat len)%N.
Proof. intros H. apply below_pow_iff. intros i Hi. rewrite H. destruct (Nat.ltb_spec i len); [lia|reflexivity]. Qed.

Lemma read_bits_ok ws pos len : words ws -> 1 <= len <= 64 -> pos + len <= 64 * length ws ->
  exists r, read_bits ws pos len (N.ones (N.of_nat len)) = Ok r /\ field ws pos len r.
Proof.
  intros Hw Hlen Hfit. unfold read_bits. destruct (dm64 pos) as (q & p & Hp & ->). rewrite div64, mod64 by assumption.
  rewrite (get_nth ws q 0%N) by lia. cbn [bind]. rewrite shr_ok by assumption. cbn [bind].
  destruct (Nat.leb_spec (p + len) 64) as [H|H].
  - eexists; split; [reflexivity|]. intros i. rewrite tb_land, tb_shiftr, tb_ones.
    destruct (Nat.ltb_spec i len); cbn [andb]; [|now rewrite andb_false_r]. rewrite andb_true_r.
    replace (64 * q + p + i) with (64 * q + (i + p)) by lia. now rewrite bitat_eq by lia.
  - rewrite (get_nth ws (q + 1) 0%N) by lia. cbn [bind]. rewrite shl_ok by lia. cbn [bind]. eexists; split; [reflexivity|].
    intros i. rewrite tb_lor, tb_land, tb_wrap, tb_shiftl, tb_shiftr, tb_ones.
    destruct (Nat.ltb_spec i len) as [Hi|Hi]; cbn [andb].
    + destruct (Nat.ltb_spec i 64); [|lia]. cbn [andb]. destruct (Nat.leb_spec (64 - p) i); cbn [andb].
      * rewrite (tb_high (nth q ws 0%N)) by (try (now apply nth_word); lia). rewrite andb_true_r. cbn [orb].
        replace (64 * q + p + i) with (64 * (q + 1) + (i - (64 - p))) by lia. now rewrite bitat_eq by lia.
      * rewrite orb_false_r. replace (64 * q + p + i) with (64 * q + (i + p)) by lia. now rewrite bitat_eq by lia.
    + rewrite andb_false_r, orb_false_r. apply tb_high; [now apply nth_word|lia].
Qed.

Lemma mask_of_ok len : len < 64 -> mask_of len = Ok (N.ones (N.of_nat len)).
Proof.
  intros H. unfold mask_of. rewrite shl_ok by assumption. cbn [bind]. rewrite mask_ones by assumption.
  destruct (Nat.eqb_spec len 64); [lia|]. now rewrite N.lor_0_l.
Qed.

Lemma get_bits_ok v pos len : words (v_words v) -> len < 64 -> pos + len <= 64 * length (v_words v) ->
  exists r, bv_get_bits v pos len = Ok r /\ field (v_words v) pos len r.
Proof.
  intros Hw Hlen Hfit. unfold bv_get_bits. destruct (Nat.eqb_spec len 0) as [->|].
  - eexists; split; [reflexivity|]. intros i. apply tb_of.
  - rewrite mask_of_ok by assumption. cbn [bind]. apply read_bits_ok; auto; lia.
Qed.
Lemma getter_ok ws base width i : words ws -> 1 <= width < 64 -> base + i * width + width <= 64 * length ws ->
  exists r, getter_access ws base width i = Ok r /\ field ws (base + i * width) width r.
Proof. intros Hw Hlen Hfit. unfold getter_access. rewrite mask_of_ok by lia. cbn [bind]. apply read_bits_ok; auto; lia. Qed.

Lemma get_ok_bit v i : words (v_words v) -> i < 64 * length (v_words v) -> bv_get v i = Ok (bitat (v_words v) i).
Proof.
  intros Hw Hi. unfold bv_get. destruct (dm64 i) as (q & p & Hp & ->). rewrite div64, mod64, bitat_eq by assumption.
  rewrite (get_nth _ q 0%N) by lia. cbn [bind]. rewrite shr_ok by assumption. cbn [bind]. f_equal.
  change 1%N with (N.ones 1). rewrite N.land_ones. change (2 ^ 1)%N with 2%N. rewrite <- N.bit0_mod.
  rewrite N.shiftr_spec by lia. rewrite N.add_0_l. unfold tb. now destruct (N.testbit _ _).
Qed.

(** ** Lists of bits *)
Lemma tb_cons b x i : tb ((if b : bool then 1 else 0) + 2 * x) i = match i with 0 => b | S j => tb x j end.
Proof.
  unfold tb. destruct i as [|i].
  - destruct b; [rewrite N.add_comm; apply N.testbit_odd_0|]. rewrite N.add_0_l. apply N.testbit_even_0.
  - rewrite Nat2N.inj_succ. destruct b; [rewrite N.add_comm; apply N.testbit_odd_succ; lia|]. rewrite N.add_0_l. apply N.testbit_even_succ. lia.
Qed.
Lemma tb_number l i : tb (number l) i = nth i l false.
Proof.
  revert i; induction l as [|b l IH]; intros i; [cbn [number]; rewrite tb_of; now destruct i|].
  cbn [number]. rewrite tb_cons. destruct i as [|i]; [reflexivity|]. apply IH.
Qed.
Lemma number_bits_of n x : (x < 2 ^ N.of_nat n)%N -> number (bits_of n x) = x.
Proof.
  intros H. apply tb_ext. intros i. rewrite tb_number, nth_bits_of. destruct (Nat.ltb_spec i n); [reflexivity|].
  symmetry. now apply (proj1 (below_pow_iff x n)).
Qed.
Lemma number_bits_of_mod n x : number (bits_of n x) = (x mod 2 ^ N.of_nat n)%N.
Proof. apply tb_ext. intros i. now rewrite tb_number, nth_bits_of, tb_mod_pow. Qed.
Lemma field_number ws l pos len r : repr ws l -> field ws pos len r -> r = number (firstn len (skipn pos l)).
Proof.
  intros Hr H. apply tb_ext. intros i. rewrite H, tb_number, nth_firstn_if, nth_skipn', (repr_bits _ _ Hr). now destruct (i <? len).
Qed.
Lemma repr_fit ws l n : repr ws l -> n <= length l -> n <= 64 * length ws.
Proof. intros Hr H. rewrite (repr_len _ _ Hr). pose proof (words_for_bound (length l)). lia. Qed.

Lemma get_bits_list v l pos len : repr (v_words v) l -> len < 64 -> pos + len <= length l ->
  bv_get_bits v pos len = Ok (number (firstn len (skipn pos l))).
Proof.
  intros Hr Hlen Hfit. destruct (get_bits_ok v pos len) as (r & -> & Hf); [apply Hr|assumption|now apply (repr_fit _ l)|].
  f_equal. now apply field_number with (v_words v).
Qed.
Lemma get_list v l i : repr (v_words v) l -> i < length l -> bv_get v i = Ok (nth i l false).
Proof.
  intros Hr Hi. rewrite get_ok_bit; [now rewrite (repr_bits _ _ Hr)|apply Hr|]. apply (repr_fit _ l (S i)); [assumption|lia].
Qed.
Lemma getter_list ws l base width i : repr ws l -> 1 <= width < 64 -> base + i * width + width <= length l ->
  getter_access ws base width i = Ok (number (firstn width (skipn (base + i * width) l))).
Proof.
  intros Hr Hw Hfit. destruct (getter_ok ws base width i) as (r & -> & Hf); [apply Hr|assumption|now apply (repr_fit _ l)|].
  f_equal. now apply field_number with ws.
Qed.

(** ** Unaligned loads *)
Lemma load64_ok ws tail o : words ws -> (tail < W64)%N -> o <= 8 * length ws ->
  exists r, load64 ws tail o = Ok r /\ (r < W64)%N /\ forall i, i < 64 -> tb r i = bitat (ws ++ [tail]) (8 * o + i).
Proof.
  intros Hw Ht Ho. unfold load64. set (vs := ws ++ [tail]).
  assert (Hvs : words vs) by (apply words_app; [assumption|constructor; [assumption|constructor]]).
  assert (Hvl : length vs = length ws + 1) by (unfold vs; rewrite app_length; reflexivity). clearbody vs.
  pose proof (Nat.div_mod o 8 ltac:(lia)) as E. pose proof (Nat.mod_upper_bound o 8 ltac:(lia)) as Hm.
  set (a := o / 8) in *. set (b := o mod 8) in *. clearbody a b. subst o.
  rewrite (get_nth vs a 0%N) by lia. cbn [bind]. rewrite shr_ok by lia. cbn [bind].
  destruct (Nat.eqb_spec (8 * b) 0).
  - eexists; split; [reflexivity|]. split; [now apply shiftr_lt, nth_word|]. intros i Hi. rewrite tb_shiftr.
    replace (8 * (8 * a + b) + i) with (64 * a + i) by lia. rewrite bitat_eq by assumption. f_equal. lia.
  - rewrite (get_nth vs (a + 1) 0%N) by lia. cbn [bind]. rewrite shl_ok by lia. cbn [bind]. eexists; split; [reflexivity|].
    split; [apply lor_lt; [now apply shiftr_lt, nth_word|apply wrap_lt]|].
    intros i Hi. rewrite tb_lor, tb_wrap, tb_shiftl, tb_shiftr. destruct (Nat.ltb_spec i 64); [|lia]. cbn [andb].
    destruct (Nat.leb_spec (64 - 8 * b) i); cbn [andb].
    + rewrite (tb_high (nth a vs 0%N)) by (try (now apply nth_word); lia). cbn [orb].
      replace (8 * (8 * a + b) + i) with (64 * (a + 1) + (i - (64 - 8 * b))) by lia. now rewrite bitat_eq by lia.
    + rewrite orb_false_r. replace (8 * (8 * a + b) + i) with (64 * a + (i + 8 * b)) by lia. now rewrite bitat_eq by lia.
Qed.
(** At least 57 bits are right. *)
Lemma get_word56_ok ws tail pos : words ws -> (tail < W64)%N -> pos <= 64 * length ws ->
  exists r, get_word56 ws tail pos = Ok r /\ (r < W64)%N /\ forall i, i < 57 -> tb r i = bitat (ws ++ [tail]) (pos + i).
Proof.
  intros Hw Ht Hp. unfold get_word56. pose proof (Nat.div_mod pos 8 ltac:(lia)) as E. pose proof (Nat.mod_upper_bound pos 8 ltac:(lia)) as Hm.
  set (a := pos / 8) in *. set (b := pos mod 8) in *. clearbody a b. subst pos.
  destruct (load64_ok ws tail a Hw Ht) as (w & -> & Hwl & Hb); [lia|]. cbn [bind]. rewrite shr_ok by lia.
  eexists; split; [reflexivity|]. split; [now apply shiftr_lt|]. intros i Hi. rewrite tb_shiftr, Hb by lia. f_equal. lia.
Qed.
Lemma bitat_app ws vs i : i < 64 * length ws -> bitat (ws ++ vs) i = bitat ws i.
Proof.
  intros H. destruct (dm64 i) as (a & b & Hb & ->). rewrite !bitat_eq by assumption. rewrite nth_app_if.
  destruct (Nat.ltb_spec a (length ws)); [reflexivity|lia].
Qed.
Lemma get_word56_field ws tail pos len : words ws -> (tail < W64)%N -> len <= 57 -> pos + len <= 64 * length ws ->
  exists r, get_word56 ws tail pos = Ok r /\ (r < W64)%N /\ field ws pos len (N.land r (N.ones (N.of_nat len))).
Proof.
  intros Hw Ht Hlen Hfit. destruct (get_word56_ok ws tail pos Hw Ht) as (r & E & Hr & Hb); [lia|]. exists r. split; [assumption|]. split; [assumption|].
  intros i. rewrite tb_land, tb_ones. destruct (Nat.ltb_spec i len); [|now rewrite andb_false_r].
  rewrite andb_true_r. cbn [andb]. rewrite Hb by lia. apply bitat_app. lia.
Qed.

Lemma get_word64_ok ws pos : words ws -> pos < 64 * length ws -> exists r, get_word64 ws pos = Ok r /\ field ws pos 64 r.
Proof.
  intros Hw Hfit. unfold get_word64. destruct (dm64 pos) as (q & p & Hp & ->). rewrite div64, mod64 by assumption.
  rewrite (get_nth ws q 0%N) by lia. cbn [bind]. rewrite shr_ok by assumption. cbn [bind].
  destruct (Nat.eqb_spec p 0) as [->|Hp0]; cbn [negb andb].
  - eexists; split; [reflexivity|]. intros i. rewrite tb_shiftr. destruct (Nat.ltb_spec i 64); cbn [andb].
    + replace (64 * q + 0 + i) with (64 * q + i) by lia. rewrite bitat_eq by assumption. f_equal. lia.
    + apply tb_high; [now apply nth_word|lia].
  - destruct (Nat.ltb_spec (q + 1) (length ws)).
    + rewrite (get_nth ws (q + 1) 0%N) by lia. cbn [bind]. rewrite shl_ok by lia. cbn [bind]. eexists; split; [reflexivity|].
      intros i. rewrite tb_lor, tb_wrap, tb_shiftl, tb_shiftr.
      destruct (Nat.ltb_spec i 64) as [Hi|Hi]; cbn [andb].
      * destruct (Nat.leb_spec (64 - p) i); cbn [andb].
        -- rewrite (tb_high (nth q ws 0%N)) by (try (now apply nth_word); lia). cbn [orb].
           replace (64 * q + p + i) with (64 * (q + 1) + (i - (64 - p))) by lia. now rewrite bitat_eq by lia.
        -- rewrite orb_false_r. replace (64 * q + p + i) with (64 * q + (i + p)) by lia. now rewrite bitat_eq by lia.
      * rewrite orb_false_r. apply tb_high; [now apply nth_word|lia].
    + eexists; split; [reflexivity|]. intros i. rewrite tb_shiftr. destruct (Nat.ltb_spec i 64); cbn [andb].
      * destruct (Nat.lt_ge_cases (i + p) 64).
        -- replace (64 * q + p + i) with (64 * q + (i + p)) by lia. now rewrite bitat_eq by lia.
        -- rewrite bitat_high by lia. apply tb_high; [now apply nth_word|lia].
      * apply tb_high; [now apply nth_word|lia].
Qed.

(** ** predecessor1 *)
Lemma predecessor1_ok ws pos p fuel : words ws -> pos < 64 * length ws -> p <= pos -> bitat ws p = true ->
  (forall j, p < j <= pos -> bitat ws j = false) -> pos / 64 < fuel -> predecessor1 ws fuel pos = Ok p.
Proof.
  intros Hw Hpos Hp Hb Hgap Hf. unfold predecessor1. set (B := pos / 64) in *.
  pose proof (Nat.div_mod pos 64 ltac:(lia)) as E. pose proof (Nat.mod_upper_bound pos 64 ltac:(lia)) as Hm. fold B in E.
  set (s := pos mod 64) in *. clearbody s B.
  rewrite (get_nth ws B 0%N) by lia. cbn [bind]. rewrite shl_ok by lia. cbn [bind]. rewrite shr_ok by lia. cbn [bind].
  destruct (loop_ok_n (pred_step ws)
    (fun n '(block, w) => n = block /\ p < 64 * (block + 1) /\ block <= B /\ (w < W64)%N /\
       forall c, c < 64 -> tb w c = (64 * block + c <=? pos) && bitat ws (64 * block + c))
    (fun r => r = p)) with (fuel := fuel) (n := B) (s := (B, N.shiftr (wrap (N.shiftl (nth B ws 0%N) (N.of_nat (64 - s - 1)))) (N.of_nat (64 - s - 1))))
    as (r & -> & ->); [| |assumption|reflexivity].
  - intros n [block w] (-> & Hlt & HB & Hwl & Hwb). unfold pred_step. rewrite msb2_log by assumption. cbn [bind].
    destruct (N.eqb_spec w 0) as [->|Hw0].
    + assert (Hout : p < 64 * block).
      { destruct (Nat.lt_ge_cases p (64 * block)); [assumption|]. specialize (Hwb (p - 64 * block) ltac:(lia)).
        replace (64 * block + (p - 64 * block)) with p in Hwb by lia. rewrite Hb, tb_of in Hwb. destruct (Nat.leb_spec p pos); [discriminate|lia]. }
      destruct (Nat.eqb_spec block 0); [lia|]. rewrite (get_nth ws (block - 1) 0%N) by lia. cbn [bind].
      exists (block - 1). split; [lia|]. split; [reflexivity|]. split; [lia|]. split; [lia|]. split; [now apply nth_word|].
      intros c Hc. rewrite bitat_eq by assumption. destruct (Nat.leb_spec (64 * (block - 1) + c) pos); [reflexivity|lia].
    + set (m := N.to_nat (N.log2 w)). assert (Hmb : tb w m = true) by (unfold tb, m; rewrite N2Nat.id; apply N.bit_log2; assumption).
      assert (Hmt : forall j, m < j -> tb w j = false) by (intros j Hj; unfold tb, m in *; apply N.bits_above_log2; lia). clearbody m.
      assert (Hm64 : m < 64) by (destruct (Nat.lt_ge_cases m 64); [assumption|]; rewrite tb_high in Hmb by assumption; discriminate).
      pose proof (Hwb m Hm64) as Em. rewrite Hmb in Em. symmetry in Em. apply andb_true_iff in Em as [Em1 Em2]. apply Nat.leb_le in Em1.
      destruct (Nat.lt_trichotomy (64 * block + m) p) as [L|[L|L]]; [|lia|].
      * exfalso. assert (tb w (p - 64 * block) = false) as T by (apply Hmt; lia). rewrite Hwb in T by lia.
        replace (64 * block + (p - 64 * block)) with p in T by lia. rewrite Hb in T. destruct (Nat.leb_spec p pos); [discriminate|lia].
      * exfalso. rewrite Hgap in Em2 by lia. discriminate.
  - split; [reflexivity|]. split; [lia|]. split; [lia|]. split; [apply shiftr_lt, wrap_lt|].
    intros c Hc. rewrite tb_shiftr, tb_wrap, tb_shiftl, bitat_eq by assumption.
    destruct (Nat.leb_spec (64 - s - 1) (c + (64 - s - 1))); [|lia]. cbn [andb].
    replace (c + (64 - s - 1) - (64 - s - 1)) with c by lia.
    destruct (Nat.ltb_spec (c + (64 - s - 1)) 64), (Nat.leb_spec (64 * B + c) pos); try (exfalso; lia); reflexivity.
Qed.
