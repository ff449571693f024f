(** bp_vector::find_close, find_open and enclose. *)
From Coq Require Import ZArith.
From Verif Require Import Base S_Bits M_Word M_Bits P_BitsRead M_Darray M_Rs M_Bp M_Paren S_Paren P_Word P_Bits P_Rank P_Rs P_Scan P_BpWord P_BpTree P_BpBuild P_Bp P_ParenWord P_ParenTree.
Local Open Scope nat_scope.

Lemma E_diff f a b : a <= b -> (- Z.of_nat (b - a) <= E f b - E f a <= Z.of_nat (b - a))%Z.
Proof. intros H. replace b with (a + (b - a)) at 2 3 by lia. rewrite E_add. pose proof (E_bound (fun x => f (a + x)) (b - a)). lia. Qed.
(** Backwards from position hi. *)
Lemma E_back f hi j : j <= hi -> E (fun i => negb (f (hi - 1 - i))) j = (E f (hi - j) - E f hi)%Z.
Proof.
  induction j as [|j IH]; intros H; [rewrite Nat.sub_0_r, E_0; lia|]. rewrite E_S, IH by lia. replace (hi - j) with (S (hi - S j)) by lia. rewrite E_S.
  replace (hi - 1 - j) with (hi - S j) by lia. destruct (f (hi - S j)); cbn [negb]; lia.
Qed.
Lemma d32 x : 32 * (x / 32) <= x < 32 * (x / 32) + 32.
Proof. pose proof (Nat.div_mod x 32). pose proof (Nat.mod_upper_bound x 32). lia. Qed.
Lemma bytes_sum_cnt w : (w < W64)%N -> Z.of_N (bytes_sum (byte_counts w)) = Z.of_nat (cnt (tb w) 64).
Proof. intros H. rewrite <- popcount_cnt by assumption. unfold popcount. lia. Qed.
Lemma word_exc w : (w < W64)%N -> to_i32 (2 * Z.of_N (bytes_sum (byte_counts w)) - 64) = E (tb w) 64.
Proof. intros H. rewrite bytes_sum_cnt by assumption. pose proof (cnt_le (tb w) 64). rewrite to_i32_id by lia. unfold E. lia. Qed.

Section Paren.
  Variables (p : bpv) (l : list bool).
  Hypothesis Hp : bp_ok p l.
  Notation ws := (v_words (rs_bv (bp_rs p))).
  Notation f := (bitat ws).
  Notation mins := (bp_block_min p).
  Hypothesis Hsz : (Z.of_nat (64 * length ws) <= 2147483583)%Z.

  Lemma word_lt s : (nth s ws 0 < W64)%N.
  Proof.
    pose proof (repr_words _ _ (ro_repr _ _ (bo_rs _ _ Hp))) as H. unfold words in H. rewrite Forall_forall in H. destruct (Nat.lt_ge_cases s (length ws)); [apply H, nth_In; assumption|].
    rewrite nth_overflow by assumption. reflexivity.
  Qed.
  Lemma word_E s j : j <= 64 -> E f (64 * s + j) = (E f (64 * s) + E (tb (nth s ws 0%N)) j)%Z.
  Proof. intros Hj. rewrite E_add. f_equal. apply E_ext. intros q Hq. now rewrite bitat_eq by lia. Qed.

  (** q is the first position, from a on, whose bit brings the excess down to t. *)
  Definition down_at (a q : nat) (t : Z) : Prop := a <= q /\ E f (q + 1) = t /\ forall r, a <= r <= q -> (t < E f r)%Z.
  Lemma down_later a b q t : down_at a q t -> a <= b <= q -> down_at b q t.
  Proof. intros (H1 & H2 & H3) Hb. split; [lia|]. split; [assumption|]. intros r Hr. apply H3. lia. Qed.
  (** Steps that a search in a word makes, from position a. *)
  Lemma steps_down F k a q t r : k <= 64 -> down_at a q t -> (forall j, j <= k -> (E F j = E f (a + j)%nat - E f a)%Z) -> (forall j, k <= j <= 64 -> (E F k <= E F j)%Z) -> steps_ok F (E f a - t) r ->
    r = if q <? a + k then Some (q + 1 - a) else None.
  Proof.
    intros Hk (H1 & H2 & H3) HF HG Hr. destruct r as [j|]; cbn [steps_ok] in Hr.
    - destruct Hr as (J1 & J2 & J3). assert (Hjk : j <= k). { destruct (Nat.le_gt_cases j k); [assumption|]. specialize (HG j ltac:(lia)). specialize (J3 k ltac:(lia)). lia. }
      rewrite HF in J2 by lia. assert (q + 1 = a + j).
      { destruct (Nat.lt_trichotomy (q + 1) (a + j)) as [Hlt|[|Hgt]]; [|assumption|].
        - specialize (J3 (q + 1 - a) ltac:(lia)). rewrite HF in J3 by lia. replace (a + (q + 1 - a)) with (q + 1) in J3 by lia. lia.
        - specialize (H3 (a + j) ltac:(lia)). lia. }
      destruct (Nat.ltb_spec q (a + k)); [f_equal; lia|lia].
    - destruct (Nat.ltb_spec q (a + k)); [|reflexivity]. specialize (Hr (q + 1 - a) ltac:(lia)). rewrite HF in Hr by lia. replace (a + (q + 1 - a)) with (q + 1) in Hr by lia. lia.
  Qed.
  Lemma down_far a q t : down_at a q t -> (64 < E f a - t)%Z -> a + 64 <= q.
  Proof. intros (H1 & H2 & H3) H. pose proof (E_diff f a (q + 1) ltac:(lia)). lia. Qed.

  Lemma close_words_ok n : forall sub q t, q < 64 * length ws -> down_at (64 * sub) q t -> (Z.abs (E f (64 * sub) - t) <= 2147483583 )%Z ->
    close_words ws n sub (E f (64 * sub) - t) = Ok (if q <? 64 * (sub + n) then Some q else None).
  Proof.
    induction n as [|n IH]; intros sub q t Hq Hd Hb; cbn [close_words].
    - destruct Hd as (H1 & _). destruct (Nat.ltb_spec q (64 * (sub + 0))); [lia|reflexivity].
    - pose proof Hd as (H1 & H2 & H3). rewrite (get_nth ws sub 0%N) by lia. cbn [bind]. pose proof (word_lt sub) as Hw. pose proof (word_E sub) as HE. set (w := nth sub ws 0%N) in *.
      pose proof (H3 (64 * sub) ltac:(lia)) as Hpos.
      assert (Hr : (do r <- (if (E f (64 * sub) - t <=? 64)%Z then find_close_in_word w (byte_counts w) (E f (64 * sub) - t) else Ok None); Ok r) = Ok (if q <? 64 * sub + 64 then Some (q - 64 * sub) else None)).
      { destruct (Z.leb_spec (E f (64 * sub) - t) 64) as [Hle|Hgt].
        - destruct (close_word_ok w (E f (64 * sub) - t) Hw ltac:(lia)) as (r & -> & Hs). cbn [bind]. f_equal.
          apply (steps_down _ 64 (64 * sub) q t) in Hs; [|lia|assumption|intros j Hj; rewrite HE by assumption; lia|intros j Hj; replace j with 64 by lia; lia]. rewrite Hs. destruct (q <? 64 * sub + 64); [|reflexivity]. cbn [option_map]. f_equal. lia.
        - cbn [bind]. pose proof (down_far _ _ _ Hd Hgt). destruct (Nat.ltb_spec q (64 * sub + 64)); [lia|reflexivity]. }
      destruct (if (E f (64 * sub) - t <=? 64)%Z then find_close_in_word w (byte_counts w) (E f (64 * sub) - t) else Ok None) as [r| | |]; cbn [bind] in Hr; try discriminate. match type of Hr with Ok _ = Ok ?v => assert (Er : r = v) by congruence end. rewrite Er. clear r Hr Er. cbn [bind].
      destruct (Nat.ltb_spec q (64 * sub + 64)) as [Hin|Hout].
      + destruct (Nat.ltb_spec q (64 * (sub + S n))); [|lia]. do 2 f_equal. lia.
      + rewrite word_exc by assumption. pose proof (HE 64 (le_n _)) as H64. replace (64 * sub + 64) with (64 * (sub + 1)) in H64 by lia. pose proof (E_bound (tb w) 64).
        rewrite i32_ok by lia. cbn [bind]. replace (E f (64 * sub) - t + E (tb w) 64)%Z with (E f (64 * (sub + 1)) - t)%Z by lia. rewrite (IH (sub + 1) q t); [|assumption|apply (down_later _ _ _ _ Hd); lia|].
        * replace (sub + 1 + n) with (sub + S n) by lia. reflexivity.
        * pose proof (E_diff f (64 * (sub + 1)) (q + 1) ltac:(lia)). lia.
  Qed.
  Lemma close_block_ok off start q t : start <= 4 -> q < 64 * length ws -> down_at (64 * (off + start)) q t ->
    find_close_in_block ws off (E f (64 * (off + start)) - t) start = Ok (if q <? 64 * (off + 4) then Some q else None).
  Proof.
    intros Hs Hq Hd. unfold find_close_in_block. pose proof Hd as (H1 & H2 & H3). pose proof (E_diff f (64 * (off + start)) (q + 1) ltac:(lia)) as Hdf. destruct (Z.ltb_spec (Z.of_nat ((4 - start) * 64)) (E f (64 * (off + start)) - t)) as [Hlt|Hge].
    - destruct (Nat.ltb_spec q (64 * (off + 4))); [|reflexivity]. exfalso. nia.
    - rewrite (close_words_ok _ _ q t); [|assumption|assumption|pose proof (H3 (64 * (off + start)) ltac:(lia)); lia]. replace (off + start + (4 - start)) with (off + 4) by lia. reflexivity.
  Qed.

  (** q is the last position before b with excess t, and the excess is above t after it up to b. *)
  Definition up_at (b q : nat) (t : Z) : Prop := q < b /\ E f q = t /\ forall r, q < r <= b -> (t < E f r)%Z.
  Lemma up_earlier a b q t : up_at b q t -> q < a <= b -> up_at a q t.
  Proof. intros (H1 & H2 & H3) Hb. split; [lia|]. split; [assumption|]. intros r Hr. apply H3. lia. Qed.
  Lemma steps_up F k b q t r : k <= 64 -> k <= b -> up_at b q t -> (forall j, j <= k -> (E F j = E f (b - j)%nat - E f b)%Z) -> (forall j, k <= j <= 64 -> (E F k <= E F j)%Z) -> steps_ok F (E f b - t) r ->
    r = if b <=? q + k then Some (b - q) else None.
  Proof.
    intros Hk Hkb (H1 & H2 & H3) HF HG Hr. destruct r as [j|]; cbn [steps_ok] in Hr.
    - destruct Hr as (J1 & J2 & J3). assert (Hjk : j <= k). { destruct (Nat.le_gt_cases j k); [assumption|]. specialize (HG j ltac:(lia)). specialize (J3 k ltac:(lia)). lia. }
      rewrite HF in J2 by lia. assert (b - q = j).
      { destruct (Nat.lt_trichotomy (b - q) j) as [Hlt|[|Hgt]]; [|assumption|].
        - specialize (J3 (b - q) Hlt). rewrite HF in J3 by lia. replace (b - (b - q)) with q in J3 by lia. lia.
        - specialize (H3 (b - j) ltac:(lia)). lia. }
      destruct (Nat.leb_spec b (q + k)); [f_equal; lia|lia].
    - destruct (Nat.leb_spec b (q + k)); [|reflexivity]. specialize (Hr (b - q) ltac:(lia)). rewrite HF in Hr by lia. replace (b - (b - q)) with q in Hr by lia. lia.
  Qed.
  Lemma up_far b q t : up_at b q t -> (64 < E f b - t)%Z -> q + 64 < b.
  Proof. intros (H1 & H2 & H3) H. pose proof (E_diff f q b ltac:(lia)). lia. Qed.
  Lemma open_words_ok off n : forall q t, off + n <= length ws -> up_at (64 * (off + n)) q t ->
    open_words ws off n (E f (64 * (off + n)) - t) = Ok (if 64 * off <=? q then Some q else None).
  Proof.
    induction n as [|n IH]; intros q t Hn Hd; cbn [open_words].
    - destruct Hd as (H1 & _). destruct (Nat.leb_spec (64 * off) q); [lia|reflexivity].
    - pose proof Hd as (H1 & H2 & H3). rewrite (get_nth ws (off + n) 0%N) by lia. cbn [bind]. pose proof (word_lt (off + n)) as Hw. pose proof (word_E (off + n)) as HE. set (w := nth (off + n) ws 0%N) in *.
      replace (off + S n) with (off + n + 1) in * by lia. pose proof (H3 (64 * (off + n + 1)) ltac:(lia)) as Hpos.
      assert (HF : forall j, j <= 64 -> (E (fun i => negb (tb w (63 - i))) j = E f (64 * (off + n + 1) - j) - E f (64 * (off + n + 1)))%Z).
      { intros j Hj. rewrite <- E_back by lia. apply E_ext. intros i Hi. f_equal. replace (64 * (off + n + 1) - 1 - i) with (64 * (off + n) + (63 - i)) by lia. now rewrite bitat_eq by lia. }
      assert (Hr : (do r <- (if (E f (64 * (off + n + 1)) - t <=? 64)%Z then find_open_in_word w (byte_counts w) (E f (64 * (off + n + 1)) - t) else Ok None); Ok r) = Ok (if 64 * (off + n) <=? q then Some (q - 64 * (off + n)) else None)).
      { destruct (Z.leb_spec (E f (64 * (off + n + 1)) - t) 64) as [Hle|Hgt].
        - destruct (open_word_ok w (E f (64 * (off + n + 1)) - t) Hw ltac:(lia)) as (r & -> & Hs). cbn [bind]. f_equal.
          apply (steps_up _ 64 (64 * (off + n + 1)) q t) in Hs; [|lia|lia|assumption|intros j Hj; now apply HF|intros j Hj; replace j with 64 by lia; lia].
          rewrite Hs. destruct (Nat.leb_spec (64 * (off + n + 1)) (q + 64)), (Nat.leb_spec (64 * (off + n)) q); try lia; [|reflexivity]. cbn [option_map]. f_equal. lia.
        - cbn [bind]. pose proof (up_far _ _ _ Hd Hgt). destruct (Nat.leb_spec (64 * (off + n)) q); [lia|reflexivity]. }
      destruct (if (E f (64 * (off + n + 1)) - t <=? 64)%Z then find_open_in_word w (byte_counts w) (E f (64 * (off + n + 1)) - t) else Ok None) as [r| | |]; cbn [bind] in Hr; try discriminate. match type of Hr with Ok _ = Ok ?v => assert (Er : r = v) by congruence end. rewrite Er. clear r Hr Er. cbn [bind].
      destruct (Nat.leb_spec (64 * (off + n)) q) as [Hin|Hout].
      + destruct (Nat.leb_spec (64 * off) q); [|lia]. do 2 f_equal. lia.
      + rewrite word_exc by assumption. pose proof (HE 64 (le_n _)) as H64. replace (64 * (off + n) + 64) with (64 * (off + n + 1)) in H64 by lia.
        pose proof (E_diff f q (64 * (off + n + 1)) ltac:(lia)). pose proof (E_diff f q (64 * (off + n)) ltac:(lia)).
        replace (E f (64 * (off + n + 1)) - t - E (tb w) 64)%Z with (E f (64 * (off + n)) - t)%Z by lia. rewrite i32_ok by lia. cbn [bind]. apply IH; [lia|]. apply (up_earlier _ _ _ _ Hd). lia.
  Qed.
  Lemma open_block_ok off start q t : off + start <= length ws -> up_at (64 * (off + start)) q t ->
    find_open_in_block ws off (E f (64 * (off + start)) - t) start = Ok (if 64 * off <=? q then Some q else None).
  Proof.
    intros Hs Hd. unfold find_open_in_block. pose proof Hd as (H1 & H2 & H3). pose proof (E_diff f q (64 * (off + start)) ltac:(lia)) as Hdf. destruct (Z.ltb_spec (Z.of_nat (start * 64)) (E f (64 * (off + start)) - t)) as [Hlt|Hge].
    - destruct (Nat.leb_spec (64 * off) q); [|reflexivity]. exfalso. lia.
    - now apply open_words_ok.
  Qed.

  (** ** Blocks *)
  Definition bm (k : nat) : Z := (E f (256 * (32 * (k / 32))%nat) + nth k mins 0)%Z.
  Lemma bm_get k s : k < length mins -> 32 * s <= k < 32 * s + 32 -> get mins k = Ok (nth k mins 0%Z) /\ i32 (E f (256 * (32 * s)) + nth k mins 0%Z) = Ok (bm k).
  Proof.
    intros Hk Hs. split; [now apply get_nth|]. assert (Eb : (E f (256 * (32 * s)) + nth k mins 0 = bm k)%Z). { unfold bm. do 4 f_equal. apply (Nat.div_unique k 32 s (k - 32 * s)); lia. }
    rewrite Eb. pose proof (bm_near p l Hp k Hk) as Hn. unfold near in Hn. fold (bm k) in Hn. apply i32_ok. lia.
  Qed.
  (** b is the first block from start on (the last one up to stop) with a minimum not above e. *)
  Definition first_block (start b : nat) (e : Z) : Prop := start <= b < length mins /\ (bm b <= e)%Z /\ forall k, start <= k < b -> (e < bm k)%Z.
  Definition last_block (stop b : nat) (e : Z) : Prop := b <= stop < length mins /\ (bm b <= e)%Z /\ forall k, b < k <= stop -> (e < bm k)%Z.
  Lemma blocks_up_ok s e n : forall block b, 32 * s <= block -> block + n <= 32 * s + 32 -> block + n <= length mins -> first_block block b e ->
    blocks_up mins (E f (256 * (32 * s))) e n block = Ok (if b <? block + n then Some b else None).
  Proof.
    induction n as [|n IH]; intros block b H1 H2 H3 (F1 & F2 & F3); cbn [blocks_up].
    - destruct (Nat.ltb_spec b (block + 0)); [lia|reflexivity].
    - destruct (bm_get block s ltac:(lia) ltac:(lia)) as [-> Hi]. cbn [bind]. rewrite Hi. cbn [bind]. destruct (Z.leb_spec (bm block) e) as [Hle|Hgt].
      + assert (b = block). { destruct (Nat.eq_dec b block); [assumption|]. specialize (F3 block ltac:(lia)). lia. } subst b. destruct (Nat.ltb_spec block (block + S n)); [reflexivity|lia].
      + assert (b <> block) by (intros ->; lia). rewrite (IH (block + 1) b); [replace (block + 1 + n) with (block + S n) by lia; reflexivity|lia..|]. split; [lia|]. split; [assumption|]. intros k Hk. apply F3. lia.
  Qed.
  Lemma blocks_down_ok s e n : forall b, n <= 32 -> 32 * s + n <= length mins -> b < 32 * s + n -> (bm b <= e)%Z -> (forall k, b < k < 32 * s + n -> (e < bm k)%Z) ->
    blocks_down mins (E f (256 * (32 * s))) e (32 * s) n = Ok (if 32 * s <=? b then Some b else None).
  Proof.
    induction n as [|n IH]; intros b H2 H3 F1 F2 F3; cbn [blocks_down].
    - destruct (Nat.leb_spec (32 * s) b); [lia|reflexivity].
    - destruct (bm_get (32 * s + n) s ltac:(lia) ltac:(lia)) as [-> Hi]. cbn [bind]. rewrite Hi. cbn [bind]. destruct (Z.leb_spec (bm (32 * s + n)) e) as [Hle|Hgt].
      + assert (b = 32 * s + n). { destruct (Nat.eq_dec b (32 * s + n)); [assumption|]. specialize (F3 (32 * s + n) ltac:(lia)). lia. } subst b. destruct (Nat.leb_spec (32 * s) (32 * s + n)); [reflexivity|lia].
      + assert (b <> 32 * s + n) by (intros ->; lia). apply IH; [lia|lia|lia|assumption|]. intros k Hk. apply F3. lia.
  Qed.
  Lemma block_exc k : k < length mins -> block_excess (bp_rs p) k = Ok (E f (256 * k)).
  Proof.
    intros Hk. rewrite (bo_mins_len _ _ Hp) in Hk. assert (4 * k < length ws).
    { unfold ceil_div in Hk. destruct (Nat.lt_ge_cases (4 * k) (length ws)); [assumption|]. assert ((length ws + 4 - 1) / 4 <= k); [|lia]. assert ((length ws + 4 - 1) / 4 < k + 1); [|lia]. apply Nat.div_lt_upper_bound; lia. }
    apply (block_excess_ok _ l); [apply (bo_rs _ _ Hp)|assumption|]. apply (bo_near _ _ Hp). lia.
  Qed.
  Lemma super_up block b e : first_block block b e ->
    search_in_superblock true p block e = Ok (if b / 32 =? block / 32 then Some b else None).
  Proof.
    intros Hf. pose proof Hf as (F1 & _). unfold search_in_superblock. rewrite (Nat.mul_comm (block / 32) 32). pose proof (d32 block) as D1. pose proof (d32 b) as D2.
    rewrite block_exc by lia. cbn [bind]. rewrite (blocks_up_ok (block / 32) e _ block b); [|lia|lia|lia|assumption]. f_equal.
    destruct (Nat.eqb_spec (b / 32) (block / 32)) as [Eq|Ne].
    - destruct (Nat.ltb_spec b (block + (Nat.min ((block / 32 + 1) * 32) (length mins) - block))); [reflexivity|lia].
    - assert (block / 32 <= b / 32) by (apply Nat.div_le_mono; lia). destruct (Nat.ltb_spec b (block + (Nat.min ((block / 32 + 1) * 32) (length mins) - block))); [lia|reflexivity].
  Qed.
  Lemma super_down block b e : last_block block b e ->
    search_in_superblock false p block e = Ok (if b / 32 =? block / 32 then Some b else None).
  Proof.
    intros (F1 & F2 & F3). unfold search_in_superblock. rewrite (Nat.mul_comm (block / 32) 32). pose proof (d32 block) as D1. pose proof (d32 b) as D2.
    rewrite block_exc by lia. cbn [bind]. rewrite (blocks_down_ok (block / 32) e _ b); [|lia|lia|lia|assumption|intros k Hk; apply F3; lia]. f_equal.
    destruct (Nat.eqb_spec (b / 32) (block / 32)) as [Eq|Ne].
    - destruct (Nat.leb_spec (32 * (block / 32)) b); [reflexivity|lia].
    - assert (b / 32 <= block / 32) by (apply Nat.div_le_mono; lia). destruct (Nat.leb_spec (32 * (block / 32)) b); [lia|reflexivity].
  Qed.
  Lemma supers n s : 32 * s < n -> s < ceil_div n 32.
  Proof. intros H. unfold ceil_div. apply Nat.div_le_lower_bound; lia. Qed.
  Lemma search_up block b e : first_block block b e -> (e < Z.of_nat (length l))%Z -> search_min_tree true p block e = Ok (Some b).
  Proof.
    intros Hf He. pose proof Hf as (F1 & F2 & F3). unfold search_min_tree. rewrite (super_up block b e Hf). cbn [bind].
    destruct (Nat.eqb_spec (b / 32) (block / 32)) as [|Ne]; [reflexivity|]. pose proof (d32 block) as D1. pose proof (d32 b) as D2. assert (block / 32 <= b / 32) by (apply Nat.div_le_mono; lia).
    destruct (bo_tree _ _ Hp) as (HH & nsb & sm & Hnsb & Ht & Hsm).
    assert (Hmin : forall s, s < nsb -> is_min bm (32 * s) (Nat.min (32 * s + 32) (length mins)) (sm s)) by exact Hsm. clear Hsm.
    assert (Hbs : b / 32 < nsb) by (rewrite Hnsb; apply supers; lia).
    assert (A1 : block / 32 < b / 32 /\ b / 32 < nsb) by lia.
    assert (A2 : (sm (b / 32)%nat <= e)%Z). { pose proof (is_min_le _ _ _ _ b (Hmin _ Hbs) ltac:(lia)). lia. }
    assert (A3 : forall s, block / 32 < s < b / 32 -> (e < sm s)%Z). { intros s Hs. destruct (Hmin s ltac:(lia)) as [(k & Hk & <-) _]. apply F3. lia. }
    destruct (climb_up _ _ _ _ sm (Z.of_nat (length l)) e Ht (bo_nodes _ _ Hp) He (block / 32) (b / 32) A1 A2 A3) as (cur & -> & Hc). cbn [bind].
    rewrite (descend_up _ _ _ _ sm (Z.of_nat (length l)) e Ht (bo_nodes _ _ Hp) He (block / 32) (b / 32) A1 A2 A3 cur Hc). cbn [bind].
    replace ((bp_internal p + b / 32 - bp_internal p) * 32 + 0) with (32 * (b / 32)) by lia. rewrite (super_up _ b e).
    - rewrite (Nat.mul_comm 32), Nat.div_mul by lia. rewrite Nat.eqb_refl. reflexivity.
    - split; [lia|]. split; [assumption|]. intros k Hk. apply F3. lia.
  Qed.
  Lemma search_down block b e : last_block block b e -> (e < Z.of_nat (length l))%Z -> search_min_tree false p block e = Ok (Some b).
  Proof.
    intros Hf He. pose proof Hf as (F1 & F2 & F3). unfold search_min_tree. rewrite (super_down block b e Hf). cbn [bind].
    destruct (Nat.eqb_spec (b / 32) (block / 32)) as [|Ne]; [reflexivity|]. pose proof (d32 block) as D1. pose proof (d32 b) as D2. assert (b / 32 <= block / 32) by (apply Nat.div_le_mono; lia).
    destruct (bo_tree _ _ Hp) as (HH & nsb & sm & Hnsb & Ht & Hsm).
    assert (Hmin : forall s, s < nsb -> is_min bm (32 * s) (Nat.min (32 * s + 32) (length mins)) (sm s)) by exact Hsm. clear Hsm.
    assert (Hbs : block / 32 < nsb) by (rewrite Hnsb; apply supers; lia).
    assert (A1 : b / 32 < block / 32 /\ block / 32 < nsb) by lia.
    assert (A2 : (sm (b / 32)%nat <= e)%Z). { pose proof (is_min_le _ _ _ _ b (Hmin (b / 32) ltac:(lia)) ltac:(lia)). lia. }
    assert (A3 : forall s, b / 32 < s < block / 32 -> (e < sm s)%Z). { intros s Hs. destruct (Hmin s ltac:(lia)) as [(k & Hk & <-) _]. apply F3. lia. }
    destruct (climb_down _ _ _ _ sm (Z.of_nat (length l)) e Ht (bo_nodes _ _ Hp) He (block / 32) (b / 32) A1 A2 A3) as (cur & -> & Hc). cbn [bind].
    rewrite (descend_down _ _ _ _ sm (Z.of_nat (length l)) e Ht (bo_nodes _ _ Hp) He (block / 32) (b / 32) A1 A2 A3 cur Hc). cbn [bind].
    replace ((bp_internal p + b / 32 - bp_internal p) * 32 + 31) with (b / 32 * 32 + 31) by lia. rewrite (super_down _ b e).
    - rewrite Nat.div_add_l by lia. rewrite (Nat.div_small 31) by lia. rewrite Nat.add_0_r, Nat.eqb_refl. reflexivity.
    - split; [lia|]. split; [assumption|]. intros k Hk. apply F3. lia.
  Qed.
  Lemma bm_lo k a : k < length mins -> (forall r, 256 * k <= r <= 256 * k + 256 -> r <= length l -> (a < E f r)%Z) -> (a < bm k)%Z.
  Proof. intros Hk H. destruct (bo_mins _ _ Hp k Hk) as [(r & Hr & Er) _]. unfold bm. rewrite <- Er. apply H; lia. Qed.
  Lemma bm_hi k r : k < length mins -> 256 * k <= r <= 256 * k + 256 -> r <= length l -> (bm k <= E f r)%Z.
  Proof. intros Hk Hr Hl. apply (is_min_le _ _ _ _ r (bo_mins _ _ Hp k Hk)). lia. Qed.

  (** ** find_close *)
  Lemma dm m x : m <> 0 -> x = m * (x / m) + x mod m /\ x mod m < m.
  Proof. intros H. split; [now apply Nat.div_mod|now apply Nat.mod_upper_bound]. Qed.
  Lemma find_close_ok wide pos q : q < length l -> down_at (pos + 1) q (E f pos) -> (pos + 1) mod 64 <> 0 \/ (exists u, wide = Ok u) ->
    find_close wide p pos = Ok (Some q).
  Proof.
    intros Hq Hd Hwide. pose proof Hd as (H1 & H2 & H3). pose proof (fit p l Hp) as Hfit. unfold find_close.
    destruct (dm 64 (pos + 1) ltac:(lia)) as [Hdm Hmod]. set (wp := (pos + 1) / 64) in *. set (shift := (pos + 1) mod 64) in *. clearbody wp shift.
    rewrite (get_nth ws wp 0%N) by lia. cbn [bind]. rewrite shr_ok by lia. cbn [bind]. pose proof (word_lt wp) as Hw.
    assert (Hpad : exists pad, shl_wide wide ALL (64 - shift) = Ok pad /\ (shift <> 0 -> pad = wrap (N.shiftl ALL (N.of_nat (64 - shift))))).
    { unfold shl_wide. destruct (Nat.ltb_spec (64 - shift) 64); [rewrite shl_ok by assumption; eexists; split; [reflexivity|reflexivity]|].
      destruct Hwide as [Hn|(u & ->)]; [lia|]. exists u. split; [reflexivity|lia]. }
    destruct Hpad as (pad & -> & Hpad). cbn [bind].
    set (padded := N.lor (N.shiftr (nth wp ws 0%N) (N.of_nat shift)) (N.land (if shift =? 0 then 0%N else ALL) pad)).
    assert (Hlt : (padded < W64)%N). { unfold padded. apply lor_lt; [now apply shiftr_lt|]. apply land_lt. destruct (shift =? 0); reflexivity. }
    assert (Hbits : forall j, j < 64 -> tb padded j = if j <? 64 - shift then f (pos + 1 + j) else true).
    { intros j Hj. unfold padded. rewrite tb_lor, tb_land, tb_shiftr. destruct (Nat.ltb_spec j (64 - shift)) as [Hin|Hout].
      - replace (pos + 1 + j) with (64 * wp + (j + shift)) by lia. rewrite bitat_eq by lia. destruct (Nat.eqb_spec shift 0) as [E0|E0]; [rewrite tb_of; cbn [andb]; apply orb_false_r|].
        rewrite (Hpad E0), tb_wrap, tb_shiftl. destruct (Nat.leb_spec (64 - shift) j); [lia|]. cbn [andb]. rewrite !andb_false_r. apply orb_false_r.
      - destruct (Nat.eqb_spec shift 0) as [E0|E0]; [lia|]. rewrite (Hpad E0), tb_wrap, tb_shiftl. destruct (Nat.leb_spec (64 - shift) j); [|lia]. destruct (Nat.ltb_spec j 64); [|lia].
        change ALL with (N.ones (N.of_nat 64)). rewrite !tb_ones. destruct (Nat.ltb_spec j 64); [|lia]. destruct (Nat.ltb_spec (j - (64 - shift)) 64); [|lia]. apply orb_true_r. }
    assert (HF : forall j, j <= 64 - shift -> (E (tb padded) j = E f (pos + 1 + j)%nat - E f (pos + 1))%Z).
    { intros j Hj. rewrite (E_add f (pos + 1) j). rewrite (E_ext (tb padded) (fun x => f (pos + 1 + x))); [lia|]. intros i Hi. rewrite Hbits by lia. destruct (Nat.ltb_spec i (64 - shift)); [reflexivity|lia]. }
    assert (HG : forall j, 64 - shift <= j <= 64 -> (E (tb padded) j = E (tb padded) (64 - shift) + Z.of_nat (j - (64 - shift)))%Z).
    { intros j Hj. replace j with (64 - shift + (j - (64 - shift))) at 1 by lia. apply E_ones. intros i Hi. rewrite Hbits by lia. destruct (Nat.ltb_spec i (64 - shift)); [lia|reflexivity]. }
    assert (Hone : (E f (pos + 1) - E f pos = 1)%Z). { pose proof (H3 (pos + 1) ltac:(lia)) as Hup. rewrite Nat.add_1_r, E_S in *. destruct (f pos); lia. }
    clearbody padded. clear Hbits Hpad.
    destruct (close_word_ok padded 1 Hlt ltac:(lia)) as (r & -> & Hs). cbn [bind]. rewrite <- Hone in Hs.
    apply (steps_down _ (64 - shift) (pos + 1) q (E f pos)) in Hs; [|lia|assumption|assumption|intros j Hj; rewrite (HG j Hj); lia]. rewrite Hs. clear r Hs.
    replace (pos + 1 + (64 - shift)) with (64 * (wp + 1)) by lia.
    destruct (Nat.ltb_spec q (64 * (wp + 1))) as [Hin|Hout]; [cbn [option_map]; do 2 f_equal; lia|]. cbn [option_map].
    (* the local block *)
    destruct (dm 4 wp ltac:(lia)) as [Hb4 Hm4]. set (block := wp / 4) in *. set (sb := wp mod 4) in *. clearbody block sb.
    assert (He : to_i32 (2 * (Z.of_N (bytes_sum (byte_counts padded)) - Z.of_nat shift) - (64 - Z.of_nat shift)) = (E f (64 * (wp + 1)) - E f (pos + 1))%Z).
    { rewrite bytes_sum_cnt by assumption. pose proof (HG 64 ltac:(lia)) as G1. pose proof (HF (64 - shift) (le_n _)) as G2. replace (pos + 1 + (64 - shift)) with (64 * (wp + 1)) in G2 by lia.
      pose proof (cnt_le (tb padded) 64). rewrite to_i32_id by lia. unfold E in G1 at 1. lia. }
    rewrite He. clear He. pose proof (E_diff f (pos + 1) (64 * (wp + 1)) ltac:(lia)). rewrite i32_ok by lia. cbn [bind].
    replace (E f (64 * (wp + 1)) - E f (pos + 1) + 1)%Z with (E f (64 * (block * 4 + (sb + 1))) - E f pos)%Z by (replace (block * 4 + (sb + 1)) with (wp + 1) by lia; lia).
    assert (Hd1 : down_at (64 * (block * 4 + (sb + 1))) q (E f pos)) by (apply (down_later _ _ _ _ Hd); lia).
    rewrite (close_block_ok (block * 4) (sb + 1) q _ ltac:(lia) ltac:(lia) Hd1). cbn [bind]. destruct (Nat.ltb_spec q (64 * (block * 4 + 4))) as [Hin2|Hout2]; [reflexivity|].
    (* the tree *)
    rewrite (excess_ok p l Hp pos) by lia. cbn [bind]. destruct (dm 256 q ltac:(lia)) as [Hq256 Hqm]. set (fb := q / 256) in *. clearbody fb. set (qm := q mod 256) in *. clearbody qm.
    assert (Hfb : fb < length mins) by (apply (mins_of p l Hp); lia).
    rewrite (search_up (block + 1) fb).
    - cbn [bind]. rewrite block_exc by assumption. cbn [bind]. pose proof (E_diff f (256 * fb) (q + 1) ltac:(lia)). rewrite i32_ok by lia. cbn [bind].
      replace (256 * fb) with (64 * (fb * 4 + 0)) by lia. rewrite (close_block_ok (fb * 4) 0 q (E f pos)); [|lia|lia|apply (down_later _ _ _ _ Hd); lia].
      destruct (Nat.ltb_spec q (64 * (fb * 4 + 4))); [reflexivity|lia].
    - split; [lia|]. split; [pose proof (bm_hi fb (q + 1) Hfb ltac:(lia) ltac:(lia)); lia|]. intros k Hk. apply bm_lo; [lia|]. intros r Hr _. apply H3. lia.
    - pose proof (E_bound f pos). lia.
  Qed.

  (** ** find_open *)
  Lemma find_open_ok wide pos q : pos < length l -> up_at pos q (E f pos - 1) -> pos mod 64 <> 0 \/ (exists u, wide = Ok u) ->
    find_open wide p pos = Ok (Some q).
  Proof.
    intros Hpos Hd Hwide. pose proof Hd as (H1 & H2 & H3). pose proof (fit p l Hp) as Hfit. unfold find_open.
    destruct (dm 64 pos ltac:(lia)) as [Hdm Hmod]. set (wp := pos / 64) in *. set (len := pos mod 64) in *. clearbody wp len.
    rewrite (get_nth ws wp 0%N) by lia. cbn [bind]. pose proof (word_lt wp) as Hw.
    assert (Hmoved : exists moved, shl_wide wide (nth wp ws 0%N) (64 - len) = Ok moved /\ (len <> 0 -> moved = wrap (N.shiftl (nth wp ws 0%N) (N.of_nat (64 - len))))).
    { unfold shl_wide. destruct (Nat.ltb_spec (64 - len) 64); [rewrite shl_ok by assumption; eexists; split; [reflexivity|reflexivity]|].
      destruct Hwide as [Hn|(u & ->)]; [lia|]. exists u. split; [reflexivity|lia]. }
    destruct Hmoved as (moved & -> & Hmoved). cbn [bind].
    set (shifted := N.land (if len =? 0 then 0%N else ALL) moved).
    assert (Hlt : (shifted < W64)%N). { unfold shifted. apply land_lt. destruct (len =? 0); reflexivity. }
    assert (Hbits : forall i, i < 64 -> tb shifted (63 - i) = if i <? len then f (pos - 1 - i) else false).
    { intros i Hi. unfold shifted. rewrite tb_land. destruct (Nat.eqb_spec len 0) as [E0|E0]; [rewrite tb_of; destruct (Nat.ltb_spec i len); [lia|reflexivity]|].
      rewrite (Hmoved E0), tb_wrap, tb_shiftl. change ALL with (N.ones (N.of_nat 64)). rewrite tb_ones. destruct (Nat.ltb_spec (63 - i) 64); [|lia]. cbn [andb].
      destruct (Nat.ltb_spec i len), (Nat.leb_spec (64 - len) (63 - i)); try lia; try reflexivity; cbn [andb].
      replace (pos - 1 - i) with (64 * wp + (63 - i - (64 - len))) by lia. now rewrite bitat_eq by lia. }
    assert (HF : forall j, j <= len -> (E (fun i => negb (tb shifted (63 - i))) j = E f (pos - j)%nat - E f pos)%Z).
    { intros j Hj. rewrite <- E_back by lia. apply E_ext. intros i Hi. rewrite Hbits by lia. destruct (Nat.ltb_spec i len); [reflexivity|lia]. }
    assert (HG : forall j, len <= j <= 64 -> (E (fun i => negb (tb shifted (63 - i))) j = E (fun i => negb (tb shifted (63 - i))) len + Z.of_nat (j - len))%Z).
    { intros j Hj. replace j with (len + (j - len)) at 1 by lia. apply E_ones. intros i Hi. rewrite Hbits by lia. destruct (Nat.ltb_spec i len); [lia|reflexivity]. }
    assert (Hall : E (fun i => negb (tb shifted (63 - i))) 64 = (- E (tb shifted) 64)%Z).
    { pose proof (E_back (tb shifted) 64 64 (le_n _)) as Hb. rewrite Nat.sub_diag, E_0 in Hb. rewrite Z.sub_0_l in Hb. rewrite <- Hb. reflexivity. }
    clearbody shifted. clear Hbits Hmoved.
    destruct (open_word_ok shifted 1 Hlt ltac:(lia)) as (r & -> & Hs). cbn [bind]. replace 1%Z with (E f pos - (E f pos - 1))%Z in Hs by lia.
    apply (steps_up _ len pos q (E f pos - 1)) in Hs; [|lia|lia|assumption|assumption|intros j Hj; rewrite (HG j Hj); lia]. rewrite Hs. clear r Hs.
    destruct (Nat.leb_spec pos (q + len)) as [Hin|Hout]; [cbn [option_map]; do 2 f_equal; lia|]. cbn [option_map].
    (* the local block *)
    destruct (dm 4 wp ltac:(lia)) as [Hb4 Hm4]. set (block := wp / 4) in *. set (sb := wp mod 4) in *. clearbody block sb.
    pose proof (E_diff f (64 * wp) pos ltac:(lia)).
    assert (He : (- to_i32 (2 * Z.of_N (bytes_sum (byte_counts shifted)) - Z.of_nat len) = E f (64 * wp) - E f pos)%Z).
    { rewrite bytes_sum_cnt by assumption. pose proof (HG 64 ltac:(lia)) as G1. pose proof (HF len (le_n _)) as G2. replace (pos - len) with (64 * wp) in G2 by lia.
      pose proof (cnt_le (tb shifted) 64). rewrite to_i32_id by lia. rewrite Hall in G1. unfold E in G1 at 1. lia. }
    rewrite He. clear He. rewrite i32_ok by lia. cbn [bind]. rewrite i32_ok by lia. cbn [bind].
    replace (E f (64 * wp) - E f pos + 1)%Z with (E f (64 * (block * 4 + sb)) - (E f pos - 1))%Z by (replace (block * 4 + sb) with wp by lia; lia).
    assert (Hd1 : up_at (64 * (block * 4 + sb)) q (E f pos - 1)) by (apply (up_earlier _ _ _ _ Hd); lia).
    rewrite (open_block_ok (block * 4) sb q _ ltac:(lia) Hd1). cbn [bind]. destruct (Nat.leb_spec (64 * (block * 4)) q) as [Hin2|Hout2]; [reflexivity|].
    (* the tree *)
    rewrite (excess_ok p l Hp pos) by lia. cbn [bind]. pose proof (E_bound f pos). pose proof (bo_small _ _ Hp). rewrite i32_ok by lia. cbn [bind].
    destruct (Nat.eqb_spec block 0); [lia|]. destruct (dm 256 q ltac:(lia)) as [Hq256 Hqm]. set (fb := q / 256) in *. clearbody fb. set (qm := q mod 256) in *. clearbody qm.
    assert (Hbl : block < length mins) by (apply (mins_of p l Hp); lia).
    rewrite (search_down (block - 1) fb).
    - cbn [bind]. rewrite block_exc by lia. cbn [bind]. pose proof (E_diff f q (256 * (fb + 1)) ltac:(lia)). rewrite i32_ok by lia. cbn [bind].
      replace (256 * (fb + 1)) with (64 * (fb * 4 + 4)) by lia. rewrite (open_block_ok (fb * 4) 4 q (E f pos - 1)); [|lia|apply (up_earlier _ _ _ _ Hd); lia].
      destruct (Nat.leb_spec (64 * (fb * 4)) q); [reflexivity|lia].
    - split; [lia|]. split; [pose proof (bm_hi fb q ltac:(lia) ltac:(lia) ltac:(lia)); lia|]. intros k Hk. apply bm_lo; [lia|]. intros r Hr _. apply H3. lia.
    - lia.
  Qed.
End Paren.
