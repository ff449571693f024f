(** Lists of 2^30 - 1 elements or more: the minima of all superblocks are a negative number, so that only the first superblock of a
    range is searched. *)
From Coq Require Import ZArith.
From Verif Require Import Base S_Bits S_TopK M_Word M_Bits P_BitsRead M_Darray M_Rs M_Bp M_Cart P_Word P_Bits P_Rank P_Rs P_Scan P_BpWord P_BpTree P_BpBuild P_Bp P_Cart.
Local Open Scope nat_scope.

Record bp_long (p : bpv) (l : list bool) (neg : Z) : Prop := {
  bl_rs : rs_ok (bp_rs p) l;
  bl_near : forall q, q <= 64 * length (v_words (rs_bv (bp_rs p))) -> near (E (bitat (v_words (rs_bv (bp_rs p)))) q);
  bl_above : forall q, q <= 64 * length (v_words (rs_bv (bp_rs p))) -> (neg < E (bitat (v_words (rs_bv (bp_rs p)))) q)%Z;
  bl_mins_len : length (bp_block_min p) = ceil_div (length (v_words (rs_bv (bp_rs p)))) 4;
  bl_mins : forall k, k < length (bp_block_min p) ->
    is_min (E (bitat (v_words (rs_bv (bp_rs p))))) (256 * k) (Nat.min (256 * k + 256) (length l) + 1) (E (bitat (v_words (rs_bv (bp_rs p)))) (256 * (32 * (k / 32))) + nth k (bp_block_min p) 0)%Z;
  bl_tree : exists H, tree_ok (bp_tree p) (bp_internal p) H (ceil_div (length (bp_block_min p)) 32) (fun _ => neg)
}.

Lemma upd_repeat {A} (x : A) n i : upd (repeat x n) i x = repeat x n.
Proof. revert i. induction n as [|n IH]; intros [|i]; cbn; try reflexivity. f_equal. apply IH. Qed.
Lemma fill_up_repeat x L n : n + 1 < L -> fill_up n (repeat x L) = Ok (repeat x L).
Proof.
  induction n as [|n IH]; intros H; [reflexivity|]. cbn [fill_up]. assert (Hd : (S n + 1) / 2 < L) by (pose proof (Nat.div_lt (S n + 1) 2); lia).
  rewrite (get_nth _ ((S n + 1) / 2) x) by (rewrite repeat_length; lia). rewrite (get_nth _ (S n + 1) x) by (rewrite repeat_length; lia). cbn [bind].
  rewrite !nth_repeat, Z.min_id, set_ok by (rewrite repeat_length; lia). cbn [bind]. rewrite upd_repeat. apply IH. lia.
Qed.

Section Supers.
  Variables (r : rsv) (l : list bool) (mins : list Z) (neg : Z).
  Notation ws := (v_words (rs_bv r)).
  Notation f := (bitat ws).
  Hypothesis Hr : rs_ok r l.
  Hypothesis Hnear : forall q, q <= 64 * length ws -> near (E f q).
  Hypothesis Habove : forall q, q <= 64 * length ws -> (neg < E f q)%Z.
  Hypothesis Hlen : length mins = ceil_div (length ws) 4.
  Hypothesis Hneg : to_i32 (Z.of_nat (length l)) = neg.
  Hypothesis Hmins : forall k, k < length mins -> is_min (E f) (256 * k) (Nat.min (256 * k + 256) (length l) + 1) (E f (256 * (32 * (k / 32))%nat) + nth k mins 0)%Z.
  Lemma super_mins_long n : forall s, s + n = ceil_div (length mins) 32 -> super_mins r mins (length mins) n s = Ok (repeat neg n).
  Proof.
    induction n as [|n IH]; intros s Hs; [reflexivity|]. cbn [super_mins].
    assert (Hsb : 32 * s < length mins).
    { unfold ceil_div in Hs. pose proof (Nat.div_mod (length mins + 32 - 1) 32). pose proof (Nat.mod_upper_bound (length mins + 32 - 1) 32). lia. }
    assert (Hsw : 4 * (s * 32) < length ws).
    { rewrite Hlen in Hsb. unfold ceil_div in Hsb. pose proof (Nat.div_mod (length ws + 4 - 1) 4). pose proof (Nat.mod_upper_bound (length ws + 4 - 1) 4). lia. }
    rewrite (block_excess_ok r l) by (try assumption; apply Hnear; lia). cbn [bind]. replace (256 * (s * 32)) with (256 * (32 * s)) by lia.
    rewrite (ro_size _ _ Hr), Hneg.
    destruct (super_min_ok r l mins Hr Hnear Hlen Hmins s (Nat.min ((s + 1) * 32) (length mins) - s * 32) (s * 32) neg) as (v & -> & V1 & V2 & V3); [lia..|]. cbn [bind].
    rewrite IH by lia. cbn [bind repeat]. f_equal. f_equal. destruct V3 as [->|(q & Hq & Eq)]; [reflexivity|exfalso].
    destruct (Hmins q) as [(x & Hx & Ex) _]; [lia|]. pose proof (repr_fit _ _ (length l) (ro_repr _ _ Hr) (le_n _)). specialize (Habove x ltac:(lia)). lia.
  Qed.
End Supers.

Lemma bp_build_long ws l h h0 neg : repr ws l -> l <> [] -> to_i32 (Z.of_nat (length l)) = neg -> (forall q, q <= 64 * length ws -> near (E (bitat ws) q)) ->
  (forall q, q <= 64 * length ws -> (neg < E (bitat ws) q)%Z) ->
  exists p, bp_build {| v_words := ws; v_size := length l |} h h0 = Ok p /\ rs_bv (bp_rs p) = {| v_words := ws; v_size := length l |} /\ bp_long p l neg.
Proof.
  intros Hr Hne Hneg Hnear Habove. unfold bp_build. destruct (rs_build_ok ws l h h0 Hr) as (r & -> & Er & Hro). cbn [bind v_size v_words].
  assert (Hl0 : 0 < length l) by (destruct l; [congruence|cbn; lia]). destruct (Nat.eqb_spec (length l) 0); [lia|].
  assert (Hsz : length l <= 64 * length ws /\ 64 * length ws < length l + 64).
  { rewrite (repr_len _ _ Hr). unfold words_for. pose proof (Nat.div_mod (length l + 63) 64). pose proof (Nat.mod_upper_bound (length l + 63) 64). lia. }
  destruct (min_words_ok ws (length l) Hsz Hl0 ws [] 0 0%Z 0%Z []) as (mins & -> & Hml & Hmins); [reflexivity|reflexivity|intros ->; cbn in Hsz; lia|left; tauto|].
  rewrite <- Hml. change ((length mins + 32 - 1) / 32) with (ceil_div (length mins) 32). set (nsb := ceil_div (length mins) 32) in *.
  assert (Hws : v_words (rs_bv r) = ws) by (now rewrite Er).
  assert (Hnsb : 1 <= nsb).
  { unfold nsb. rewrite Hml. unfold ceil_div. apply Nat.div_le_lower_bound; [lia|]. assert (1 <= (length ws + 4 - 1) / 4); [|lia]. apply Nat.div_le_lower_bound; lia. }
  destruct (leaves_ok nsb) as (H & -> & HH). cbn [bind].
  rewrite (super_mins_long r l mins neg) with (n := nsb) (s := 0); try (rewrite Hws); try assumption; try reflexivity. cbn [bind].
  rewrite Hneg, <- repeat_app. pose proof (pow_pos H). rewrite fill_up_repeat by lia. cbn [bind]. eexists. split; [reflexivity|]. cbn [bp_rs]. split; [assumption|].
  split; cbn [bp_rs bp_internal bp_block_min bp_tree]; rewrite ?Hws; try assumption.
  exists H. fold nsb. assert (Hn : forall i, i < 2 ^ H + nsb -> nth i (repeat neg (2 ^ H + nsb)) 0%Z = neg).
  { intros i Hi. rewrite nth_repeat_if. destruct (Nat.ltb_spec i (2 ^ H + nsb)); [reflexivity|lia]. }
  split; [apply repeat_length|reflexivity|assumption|intros s Hs; apply Hn; lia|]. intros v Hv Hv2. rewrite !Hn by lia. lia.
Qed.

Lemma div32 x : 32 * (x / 32) <= x < 32 * (x / 32) + 32.
Proof. pose proof (Nat.div_mod x 32). pose proof (Nat.mod_upper_bound x 32). lia. Qed.

Section Rmq.
  Variables (p : bpv) (l : list bool) (neg : Z).
  Hypothesis Hp : bp_long p l neg.
  Notation ws := (v_words (rs_bv (bp_rs p))).
  Notation f := (bitat ws).
  Notation mins := (bp_block_min p).
  Let bm (k : nat) : Z := (E f (256 * (32 * (k / 32))%nat) + nth k mins 0)%Z.

  Lemma fit : length l <= 64 * length ws.
  Proof. exact (repr_fit _ _ _ (ro_repr _ _ (bl_rs _ _ _ Hp)) (le_n _)). Qed.
  Lemma bm_near k : k < length mins -> near (bm k).
  Proof. intros Hk. pose proof fit. destruct (bl_mins _ _ _ Hp k Hk) as [(q & Hq & Eq) _]. fold (bm k) in Eq. rewrite <- Eq. apply (bl_near _ _ _ Hp). lia. Qed.
  Lemma bm_window k : 256 * k + 256 <= length l -> is_min (E f) (256 * k) (256 * k + 256 + 1) (bm k).
  Proof.
    intros Hk. pose proof fit as Hf. assert (Hlt : k < length mins).
    { rewrite (bl_mins_len _ _ _ Hp). unfold ceil_div. apply Nat.div_le_lower_bound; lia. }
    pose proof (bl_mins _ _ _ Hp k Hlt) as Hm. fold (bm k) in Hm. replace (Nat.min (256 * k + 256) (length l)) with (256 * k + 256) in Hm by lia. exact Hm.
  Qed.
  Lemma mins_of k : 256 * k < length l -> k < length mins.
  Proof. intros H. pose proof fit. rewrite (bl_mins_len _ _ _ Hp). unfold ceil_div. apply Nat.div_le_lower_bound; lia. Qed.
  Lemma bexc k : 256 * k < length l -> block_excess (bp_rs p) k = Ok (E f (256 * k)).
  Proof. intros H. pose proof fit. apply (block_excess_ok _ l); [apply (bl_rs _ _ _ Hp)|lia|]. apply (bl_near _ _ _ Hp). lia. Qed.
  Lemma rmq_blocks_ok s n : forall b mn idx, 32 * s <= b -> b + n <= 32 * s + 32 -> b + n <= length mins ->
    exists mn' k, rmq_blocks mins (E f (256 * (32 * s))) n b mn idx = Ok (mn', opt_or k idx) /\ scan bm b (b + n) mn mn' k.
  Proof.
    induction n as [|n IH]; intros b mn idx H1 H2 H3.
    - exists mn, None. split; [reflexivity|]. apply scan_empty. lia.
    - cbn [rmq_blocks]. rewrite (get_nth mins b 0%Z) by lia. cbn [bind].
      assert (Eb : (E f (256 * (32 * s)) + nth b mins 0 = bm b)%Z). { unfold bm. do 4 f_equal. apply (Nat.div_unique b 32 s (b - 32 * s)); lia. }
      rewrite Eb. pose proof (bm_near b ltac:(lia)) as Hb. unfold near in Hb. rewrite i32_ok by lia. cbn [bind]. pose proof (scan_one bm b mn) as Hs.
      assert (Ha : b <= b + 1 <= b + 1) by lia. assert (Hc : b + 1 <= b + 1 + n) by lia. replace (b + S n) with (b + 1 + n) by lia.
      destruct (bm b <? mn)%Z.
      + destruct (IH (b + 1) (bm b) (Some b)) as (mn' & k & -> & Hs'); [lia..|]. exists mn', (opt_or k (Some b)). split; [now destruct k|].
        exact (scan_app _ _ _ _ _ _ _ _ _ _ Ha Hc Hs Hs').
      + destruct (IH (b + 1) mn idx) as (mn' & k & -> & Hs'); [lia..|]. exists mn', (opt_or k None). split; [now destruct k|].
        exact (scan_app _ _ _ _ _ _ _ _ _ _ Ha Hc Hs Hs').
  Qed.
  Lemma rmq_superblock_ok s start stop mn idx : 32 * s <= start -> start <= stop -> stop <= 32 * s + 32 -> 256 * stop <= length l ->
    exists mn' k, rmq_superblock p start stop mn idx = Ok (mn', opt_or k idx) /\ scan bm start stop mn mn' k.
  Proof.
    intros H1 H2 H3 H4. unfold rmq_superblock. destruct (Nat.eqb_spec start stop) as [->|Hne].
    - exists mn, None. split; [reflexivity|]. apply scan_empty. lia.
    - replace (start / 32) with s by (apply (Nat.div_unique start 32 s (start - 32 * s)); lia). rewrite bexc by lia. cbn [bind].
      replace (256 * (s * 32)) with (256 * (32 * s)) by lia. pose proof (mins_of (stop - 1) ltac:(lia)).
      destruct (rmq_blocks_ok s (stop - start) start mn idx) as (mn' & k & -> & Hs); [lia..|]. exists mn', k. split; [reflexivity|]. replace stop with (start + (stop - start)) by lia. assumption.
  Qed.
  Lemma excess_ok pos : pos <= length l -> excess (bp_rs p) pos = Ok (E f pos).
  Proof.
    intros H. unfold excess. rewrite (rs_rank_list _ l) by (try assumption; apply (bl_rs _ _ _ Hp)). cbn [bind]. f_equal.
    assert (Er : rank true l pos = cnt f pos). { rewrite rank_true. apply cnt_ext. intros j _. symmetry. apply (repr_bits _ _ (ro_repr _ _ (bl_rs _ _ _ Hp))). }
    rewrite Er. pose proof fit. pose proof (bl_near _ _ _ Hp pos ltac:(lia)) as Hn. apply to_i32_id. unfold near in Hn. change (-2147483648 <= E f pos <= 2147483647)%Z. lia.
  Qed.

  (** The superblock found is always the first one. *)
  Lemma find_first sa sb mn : sa < sb -> 256 * (32 * sb) <= length l -> (neg < mn)%Z -> find_min_superblock p sa sb mn None = Ok (neg, Some sa).
  Proof.
    intros H1 H2 H3. destruct (bl_tree _ _ _ Hp) as (H & Ht).
    assert (Hsb : 32 * sb <= length mins). { destruct sb as [|sb]; [lia|]. pose proof (mins_of (32 * S sb - 1) ltac:(lia)). lia. }
    assert (Hnsb : sb <= ceil_div (length mins) 32). { unfold ceil_div. apply Nat.div_le_lower_bound; lia. }
    destruct (find_min_superblock_ok p H _ _ sa sb mn Ht ltac:(lia)) as (v & k & -> & Hv). destruct Hv as [[Hl Hs]|[Hl [_ Hs]]].
    - destruct k as [s|]; [|destruct Hs; lia]. destruct Hs as (_ & S2 & <- & _ & S5). destruct (Nat.eq_dec s sa) as [->|Hn]; [reflexivity|]. specialize (S5 sa). lia.
    - specialize (Hs sa). lia.
  Qed.

  Definition mid (ba1 bb : nat) (mn : Z) : res (Z * option nat) :=
    let sa := ba1 / 32 in
    let sb := bb / 32 in
    if sa =? sb then rmq_superblock p ba1 bb mn None
    else
      do (bmin, bidx) <- rmq_superblock p ba1 ((sa + 1) * 32) mn None;
      do (smin, sidx) <- find_min_superblock p (sa + 1) sb mn None;
      do (bmin, bidx) <-
        (if (smin <? mn)%Z then
           match sidx with
           | None => UB
           | Some s => rmq_superblock p (s * 32) ((s + 1) * 32) bmin bidx
           end
         else Ok (bmin, bidx));
      rmq_superblock p (sb * 32) bb bmin bidx.
  (** Blocks found are before the superblock number [ba1 / 32 + 2] or in the last one. *)
  Lemma mid_long ba1 bb mn : ba1 <= bb -> 256 * bb <= length l -> ba1 / 32 + 1 < bb / 32 -> (neg < mn)%Z ->
    exists bmin k, mid ba1 bb mn = Ok (bmin, k) /\
      match k with None => bmin = mn | Some k => (bmin < mn)%Z /\ ba1 <= k < bb /\ (k < 32 * (ba1 / 32 + 2) \/ 32 * (bb / 32) <= k) end.
  Proof.
    intros H1 H2 H3 H4. unfold mid. cbv zeta. pose proof (div32 ba1) as Ha. pose proof (div32 bb) as Hb.
    set (sa := ba1 / 32) in *. set (sb := bb / 32) in *. destruct (Nat.eqb_spec sa sb) as [Es|Hne]; [lia|].
    destruct (rmq_superblock_ok sa ba1 ((sa + 1) * 32) mn None) as (m1 & k1 & -> & Hs1); [lia..|]. cbn [bind].
    rewrite find_first by lia. cbn [bind]. destruct (Z.ltb_spec neg mn); [|lia].
    destruct (rmq_superblock_ok (sa + 1) ((sa + 1) * 32) ((sa + 1 + 1) * 32) m1 (opt_or k1 None)) as (m2 & k2 & -> & Hs2); [lia..|]. cbn [bind].
    destruct (rmq_superblock_ok sb (sb * 32) bb m2 (opt_or k2 (opt_or k1 None))) as (m3 & k3 & -> & Hs3); [lia..|].
    exists m3, (opt_or k3 (opt_or k2 (opt_or k1 None))). split; [reflexivity|].
    pose proof (scan_le _ _ _ _ _ _ Hs1). pose proof (scan_le _ _ _ _ _ _ Hs2). pose proof (scan_le _ _ _ _ _ _ Hs3).
    destruct k3 as [k3|]; [destruct Hs3 as (X1 & X2 & _); cbn [opt_or]; clear - H1 H3 Ha Hb H0 H5 H6 X1 X2; lia|]. destruct Hs3 as [-> _].
    destruct k2 as [k2|]; [destruct Hs2 as (X1 & X2 & _); cbn [opt_or]; clear - H1 H3 Ha Hb H0 H5 H6 X1 X2; lia|]. destruct Hs2 as [-> _].
    destruct k1 as [k1|]; [destruct Hs1 as (X1 & X2 & _); cbn [opt_or]; clear - H1 H3 Ha Hb H0 H5 H6 X1 X2; lia|]. destruct Hs1 as [-> _]. reflexivity.
  Qed.

  Variables a b : nat.
  Hypothesis Hab : a <= b <= length l.
  Let sa := (a / 64 / 4 + 1) / 32.
  Let sb := (b - 1) / 64 / 4 / 32.
  Hypothesis Hfar : sa + 1 < sb.
  Definition seen (q : nat) : Prop := a <= q <= b /\ (q <= 256 * (32 * (sa + 2)) \/ 256 * (32 * sb) <= q).
  Lemma seen_scan x y m m' k i : scan (E f) x y m m' k -> m = E f i -> seen i -> (forall q, x <= q < y -> seen q) -> m' = E f (idx_upd k i) /\ seen (idx_upd k i).
  Proof.
    intros Hs -> Hi Hq. destruct k as [q|]; cbn [idx_upd].
    - destruct Hs as (_ & H2 & <- & _). split; [reflexivity|now apply Hq].
    - destruct Hs as [-> _]. now split.
  Qed.
  Theorem excess_rmq_long : exists i, excess_rmq p a b = Ok (i, E f i) /\ seen i.
  Proof.
    pose proof fit as Hfit. unfold excess_rmq. cbv zeta. rewrite excess_ok by lia. cbn [bind].
    pose proof (Nat.div_mod a 64) as Da. pose proof (Nat.mod_upper_bound a 64) as Ua. set (wa := a / 64) in *. set (ra := a mod 64) in *.
    pose proof (Nat.div_mod (b - 1) 64) as Db. pose proof (Nat.mod_upper_bound (b - 1) 64) as Ub. set (wb := (b - 1) / 64) in *.
    pose proof (Nat.div_mod wa 4) as D4. pose proof (Nat.mod_upper_bound wa 4) as U4. set (ba := wa / 4) in *.
    pose proof (Nat.div_mod wb 4) as D4'. pose proof (Nat.mod_upper_bound wb 4) as U4'. set (bb := wb / 4) in *.
    pose proof (div32 (ba + 1)) as Dsa. fold sa in Dsa. pose proof (div32 bb) as Dsb. fold sb in Dsb.
    destruct (Nat.eqb_spec a b) as [Eab|Hne]; [exfalso; lia|].
    rewrite (get_nth ws wa 0%N) by lia. cbn [bind]. rewrite shr_ok by lia. cbn [bind]. set (sub := Nat.min (64 - ra) (b - a)). set (w0 := N.shiftr _ _).
    assert (Hw0 : forall j, j < sub -> tb w0 j = f (a + j)).
    { intros j Hj. unfold w0, tb. rewrite N.shiftr_spec'. replace (N.of_nat j + N.of_nat ra)%N with (N.of_nat (ra + j)) by lia. replace (a + j) with (64 * wa + (ra + j)) by lia. rewrite bitat_eq by lia. reflexivity. }
    assert (Hpad : exists w1, (if sub =? 64 then Ok w0 else pad_ones w0 sub) = Ok w1).
    { destruct (Nat.eqb_spec sub 64); [now eexists|]. unfold pad_ones. rewrite shl_ok by lia. cbn [bind]. now eexists. }
    destruct Hpad as (w1 & Hw1). rewrite Hw1. cbn [bind].
    pose proof (bl_near _ _ _ Hp) as Hnear.
    assert (Hsub : sub = 64 - ra) by (unfold sub; lia).
    destruct (rmq_padded ws Hnear w0 w1 a a sub (E f a) a ltac:(lia) ltac:(lia) Hw0 eq_refl Hw1) as (m1 & k1 & -> & Hs1). cbn [bind].
    assert (Esub : a + sub = 64 * (wa + 1)) by lia. rewrite Esub in *.
    destruct (seen_scan _ _ _ _ _ a Hs1 eq_refl) as [E1 I1]; [unfold seen; lia|intros q Hq; unfold seen; lia|]. set (i1 := idx_upd k1 a) in *.
    destruct (Nat.eqb_spec wa wb) as [Ew|Hwne]; [exfalso; lia|].
    pose proof (Hnear (64 * (wa + 1)) ltac:(lia)) as Hn. unfold near in Hn. rewrite i32_ok by lia. cbn [bind].
    replace (E f (64 * (wa + 1)) + (64 - Z.of_nat sub) - (64 - Z.of_nat sub))%Z with (E f (64 * (wa + 1))) by lia.
    destruct (Nat.eqb_spec ba bb) as [Eb|Hbne]; [exfalso; lia|].
    destruct (rmq_words_ok ws Hnear ((ba + 1) * 4 - (wa + 1)) (wa + 1) m1 i1) as (m2 & k2 & -> & Hs2); [lia|]. cbn [bind].
    replace (wa + 1 + ((ba + 1) * 4 - (wa + 1))) with (4 * (ba + 1)) in Hs2 by lia.
    destruct (seen_scan _ _ _ _ _ i1 Hs2 E1 I1) as [E2 I2]; [intros q Hq; destruct (_ =? 0) in Hq; unfold seen; lia|]. set (i2 := idx_upd k2 i1) in *.
    match goal with |- exists i, (do st <- (do st' <- ?e; _); _) = _ /\ _ => change e with (mid (ba + 1) bb m2) end.
    assert (Hab2 : (neg < m2)%Z). { rewrite E2. apply (bl_above _ _ _ Hp). unfold seen in I2. lia. }
    destruct (mid_long (ba + 1) bb m2 ltac:(lia) ltac:(lia) Hfar Hab2) as (bmin & kb & -> & Hkb). cbn [bind]. fold sa sb in Hkb.
    match goal with |- exists i, (do st <- (do st' <- ?e; _); _) = _ /\ _ => assert (Hblk : exists i3, e = Ok (E f i3, i3) /\ seen i3) end.
    { destruct kb as [k|].
      - destruct Hkb as (B1 & B2 & B3). destruct (Z.ltb_spec bmin m2); [|lia]. rewrite bexc by lia. cbn [bind].
        replace (256 * k) with (64 * (k * 4)) by lia. destruct (rmq_words_ok ws Hnear 4 (k * 4) m2 i2) as (m3 & k3 & -> & Hs3); [lia|]. cbn [bind Nat.eqb] in *.
        destruct (seen_scan _ _ _ _ _ i2 Hs3 E2 I2) as [E3 I3]; [intros q Hq; unfold seen; lia|]. rewrite E3. eexists. split; [reflexivity|exact I3].
      - rewrite Hkb, Z.ltb_irrefl, E2. eexists. split; [reflexivity|exact I2]. }
    destruct Hblk as (i3 & -> & I3). cbn [bind]. rewrite bexc by lia. cbn [bind].
    replace (256 * bb) with (64 * (bb * 4)) by lia. destruct (rmq_words_ok ws Hnear (wb - bb * 4) (bb * 4) (E f i3) i3) as (m4 & k4 & -> & Hs4); [lia|]. cbn [bind].
    replace (bb * 4 + (wb - bb * 4)) with wb in * by lia.
    destruct (seen_scan _ _ _ _ _ i3 Hs4 eq_refl I3) as [E4 I4]; [intros q Hq; destruct (_ =? 0) in Hq; unfold seen; lia|]. set (i4 := idx_upd k4 i3) in *.
    rewrite (get_nth ws wb 0%N) by lia. cbn [bind].
    set (len := b - 64 * wb). assert (Hlen : 0 < len <= 64) by lia.
    assert (Hmod : b mod 64 = if len =? 64 then 0 else len).
    { destruct (Nat.eqb_spec len 64); symmetry; [apply (Nat.mod_unique b 64 (wb + 1))|apply (Nat.mod_unique b 64 wb)]; lia. }
    assert (Hpad : exists w2, (if b mod 64 =? 0 then Ok (nth wb ws 0%N) else pad_ones (nth wb ws 0%N) (b mod 64)) = Ok w2 /\ (if len =? 64 then Ok (nth wb ws 0%N) else pad_ones (nth wb ws 0%N) len) = Ok w2).
    { rewrite Hmod. destruct (Nat.eqb_spec len 64); [now eexists|]. destruct (Nat.eqb_spec len 0); [lia|]. unfold pad_ones. rewrite shl_ok by lia. cbn [bind]. now eexists. }
    destruct Hpad as (w2 & -> & Hw2). cbn [bind].
    destruct (rmq_padded ws Hnear (nth wb ws 0%N) w2 (wb * 64) (64 * wb) len m4 i4 ltac:(lia) Hlen) as (m5 & k5 & -> & Hs5); [|lia|exact Hw2|].
    { intros j Hj. rewrite bitat_eq by lia. reflexivity. }
    cbn [bind]. destruct (seen_scan _ _ _ _ _ i4 Hs5 E4 I4) as [E5 I5]; [intros q Hq; unfold seen; lia|].
    rewrite E5. eexists. split; [reflexivity|exact I5].
  Qed.
End Rmq.

Lemma ct_build_long l : (1073741823 <= Z.of_nat (length l) <= 1431655764)%Z -> exists p, ct_build l = Ok p /\ bp_long p (R l) (2 * Z.of_nat (length l) + 2 - 4294967296).
Proof.
  intros Hn. unfold ct_build. destruct (ct_bits_ok l) as (st & b & -> & E1 & Hb). cbn [bind]. rewrite E1. cbn [bind]. rewrite (bo_size _ _ Hb).
  assert (HE : forall q, q <= 64 * length (b_words b) -> (- Z.of_nat (length l) - 1 <= E (bitat (b_words b)) q <= Z.of_nat (length l) + 65)%Z).
  { intros q Hq. pose proof (bo_repr _ _ Hb) as Hr. pose proof (words_for_bound (length (R l))) as Hw. rewrite <- (repr_len _ _ Hr) in Hw. rewrite R_size in Hw.
    assert (Hz : rank false (R l) (length (R l)) = length l + 1) by (rewrite rank_count; apply R_zeros).
    assert (Hones : cnt (bitat (b_words b)) q <= length l + 1).
    { rewrite (cnt_ext _ (fun j => nth j (R l) false)) by (intros; apply (repr_bits _ _ Hr)). rewrite <- rank_true.
      assert (rank true (R l) q <= rank true (R l) (length (R l))). { rewrite rank_count. apply rank_le_count. } pose proof (rank_sum (R l) (length (R l)) (le_n _)). rewrite R_size in *. lia. }
    destruct (Nat.le_gt_cases q (length (R l))) as [Hq'|Hq'].
    + rewrite (E_zeros (R l) _ q) by (try assumption; apply (repr_bits _ _ Hr)). pose proof (rank_mono false (R l) q (length (R l)) Hq'). pose proof (rank_sum (R l) q Hq') as Hs.
      assert (rank true (R l) q <= length l + 1). { rewrite (cnt_ext _ (fun j => nth j (R l) false)) in Hones by (intros; apply (repr_bits _ _ Hr)). rewrite rank_true. exact Hones. }
      lia.
    + unfold E. assert (Hge : length l + 1 <= cnt (bitat (b_words b)) q).
      { rewrite (cnt_ext _ (fun j => nth j (R l) false)) by (intros; apply (repr_bits _ _ Hr)). rewrite <- rank_true. pose proof (rank_mono true (R l) (length (R l)) q ltac:(lia)). pose proof (rank_sum (R l) (length (R l)) (le_n _)). rewrite R_size in *. lia. }
      rewrite R_size in *. lia. }
  destruct (bp_build_long (b_words b) (R l) false true (2 * Z.of_nat (length l) + 2 - 4294967296)) as (p & -> & _ & Hp).
  - apply (bo_repr _ _ Hb).
  - unfold R. now destruct (S_ l (length l) + 1).
  - rewrite R_size. unfold to_i32. replace (Z.of_nat (2 * length l + 2) + 2147483648)%Z with (2 * Z.of_nat (length l) + 2 - 2147483648 + 1 * 4294967296)%Z by lia.
    rewrite Z_mod_plus_full, Z.mod_small by lia. lia.
  - intros q Hq. specialize (HE q Hq). unfold near. lia.
  - intros q Hq. specialize (HE q Hq). lia.
  - exists p. split; [reflexivity|exact Hp].
Qed.

(** One zero among ones. *)
Definition valley (i j : nat) : list nat := repeat 1 i ++ 0 :: repeat 1 j.
Lemma valley_length i j : length (valley i j) = i + 1 + j.
Proof. unfold valley. rewrite app_length. cbn [length]. rewrite !repeat_length. lia. Qed.
Lemma valley_nth i j k : k < i + 1 + j -> nth k (valley i j) 0 = if k =? i then 0 else 1.
Proof.
  intros H. unfold valley. destruct (Nat.lt_ge_cases k i).
  - rewrite app_nth1 by (rewrite repeat_length; lia). rewrite nth_repeat_if. destruct (Nat.ltb_spec k i), (Nat.eqb_spec k i); lia.
  - rewrite app_nth2, repeat_length by (rewrite repeat_length; lia). destruct (Nat.eqb_spec k i) as [->|]; [now rewrite Nat.sub_diag|].
    replace (k - i) with (S (k - i - 1)) by lia. cbn [nth]. rewrite nth_repeat_if. destruct (Nat.ltb_spec (k - i - 1) j); lia.
Qed.
Lemma drop_ones n st : (match st with [] => True | x :: _ => x <= 1 end) -> drop 1 (repeat 1 n ++ st) = repeat 1 n ++ st.
Proof. destruct n; [|reflexivity]. destruct st as [|x st]; [reflexivity|]. cbn. destruct x as [|[|]]; cbn; try reflexivity; lia. Qed.
Lemma ones_stack n st : (match st with [] => True | x :: _ => x <= 1 end) -> fold_left step (repeat 1 n) st = repeat 1 n ++ st.
Proof.
  revert st. induction n as [|n IH]; intros st H; [reflexivity|]. cbn [repeat fold_left]. pose proof (drop_ones 0 st H) as Ed. cbn [repeat app] in Ed. rewrite step_eq, Ed, IH by (cbn; lia).
  change (repeat 1 n ++ [1] ++ st = (1 :: repeat 1 n) ++ st). rewrite app_assoc. f_equal. apply repeat_snoc.
Qed.
Lemma drop_all n : drop 0 (repeat 1 n) = [].
Proof. induction n as [|n IH]; [reflexivity|]. exact IH. Qed.
Lemma valley_before i j k : k <= i -> S_ (valley i j) k = k.
Proof.
  intros H. unfold S_, valley. rewrite firstn_app, repeat_length. replace (k - i) with 0 by lia. cbn [firstn]. rewrite app_nil_r.
  replace i with (k + (i - k)) by lia. rewrite repeat_app, firstn_app, repeat_length, Nat.sub_diag. cbn [firstn]. rewrite app_nil_r, firstn_all2 by (rewrite repeat_length; lia).
  unfold stack. rewrite ones_stack by exact I. rewrite app_nil_r. apply repeat_length.
Qed.
Lemma valley_after i j k : k <= j -> S_ (valley i j) (i + 1 + k) = k + 1.
Proof.
  intros H. unfold S_, valley. rewrite firstn_app, repeat_length, firstn_all2 by (rewrite repeat_length; lia). replace (i + 1 + k - i) with (S k) by lia. cbn [firstn].
  replace j with (k + (j - k)) by lia. rewrite repeat_app, firstn_app, repeat_length, Nat.sub_diag. cbn [firstn]. rewrite app_nil_r, (firstn_all2 (repeat 1 k)) by (rewrite repeat_length; lia).
  unfold stack. rewrite fold_left_app. cbn [fold_left]. rewrite (ones_stack i []) by exact I. rewrite app_nil_r, step_eq, drop_all, ones_stack by (cbn; lia).
  rewrite app_length, repeat_length. cbn. lia.
Qed.

Lemma rmq_long i j : (1073741823 <= Z.of_nat (i + 1 + j) <= 1431655764)%Z -> (100000 <= Z.of_nat i)%Z -> (100000 <= Z.of_nat j)%Z ->
  exists t p, ct_build (valley i j) = Ok t /\ ct_rmq t 0 (i + j) = Ok p /\ p < i + 1 + j /\ p <> i.
Proof.
  intros Hn Hi Hj. set (l := valley i j). assert (Hlen : length l = i + 1 + j) by apply valley_length.
  destruct (ct_build_long l) as (t & -> & Ht); [lia|]. exists t. pose proof (bl_rs _ _ _ Ht) as Hrs.
  assert (Hsz : ct_size t = i + 1 + j).
  { unfold ct_size. rewrite (ro_size _ _ Hrs), R_size, Hlen. replace (2 * (i + 1 + j) + 2) with ((i + 1 + j + 1) * 2) by lia. rewrite Nat.div_mul by lia. lia. }
  unfold ct_rmq. destruct (Nat.eqb_spec 0 (i + j)); [lia|]. cbv zeta. rewrite Hsz. destruct (Nat.leb_spec (i + 1 + j) (i + j)); [lia|]. destruct (Nat.ltb_spec (i + 1 + j) 0); [lia|]. cbn [orb].
  assert (Hsel : forall q, q <= i + 1 + j -> rs_select true (bp_rs t) q = Ok (z_ l q)). { intros q Hq. apply (rs_select_list true _ (R l)); [assumption|]. apply R_select. lia. }
  rewrite !Hsel by lia. cbn [bind].
  assert (Ex : z_ l (i + 1 + j - (i + j)) = 3 + j).
  { unfold z_. replace (i + 1 + j - (i + j)) with 1 by lia. rewrite Hlen. replace (i + 1 + j - 1) with (i + 1 + (j - 1)) by lia. unfold l. rewrite valley_after by lia. lia. }
  assert (Ey : z_ l (i + 1 + j - 0) = 2 * (i + 1 + j) + 1).
  { unfold z_. rewrite Hlen. replace (i + 1 + j - (i + 1 + j - 0)) with 0 by lia. rewrite S_0. lia. }
  assert (Et : z_ l (i + 1 + j - (i + j) - 1) = j + 2).
  { unfold z_. replace (i + 1 + j - (i + j) - 1) with 0 by lia. rewrite Hlen, Nat.sub_0_r. unfold l. rewrite valley_after by lia. lia. }
  assert (Em : z_ l j = 2 * j + 2).
  { unfold z_. rewrite Hlen. replace (i + 1 + j - j) with (i + 1 + 0) by lia. unfold l. rewrite valley_after by lia. lia. }
  assert (Em' : z_ l (j + 1) = 2 * j + 3 + i).
  { unfold z_. rewrite Hlen. replace (i + 1 + j - (j + 1)) with i by lia. unfold l. rewrite valley_before by lia. lia. }
  assert (HzE : forall q, q <= i + 1 + j -> rank false (R l) (z_ l q) = q) by (intros q Hq; apply (R_select l q); lia).
  assert (HzS : forall q, q <= i + 1 + j -> rank false (R l) (z_ l q + 1) = q + 1).
  { intros q Hq. destruct (R_select l q ltac:(lia)) as [H1 H2]. rewrite rank_false in *. replace (z_ l q + 1) with (S (z_ l q)) by lia. rewrite cnt_S, H2. rewrite (nth_error_nth _ _ true H1). reflexivity. }
  rewrite Ex, Ey, Et. set (a := 3 + j). set (b := 2 * (i + 1 + j) + 1).
  assert (Hb : b <= length (R l)) by (rewrite R_size, Hlen; unfold b; lia).
  pose proof (Nat.div_mod a 64) as A1. pose proof (Nat.mod_upper_bound a 64) as A2. pose proof (Nat.div_mod (a / 64) 4) as A3. pose proof (Nat.mod_upper_bound (a / 64) 4) as A4.
  pose proof (div32 (a / 64 / 4 + 1)) as A5.
  pose proof (Nat.div_mod (b - 1) 64) as B1. pose proof (Nat.mod_upper_bound (b - 1) 64) as B2. pose proof (Nat.div_mod ((b - 1) / 64) 4) as B3. pose proof (Nat.mod_upper_bound ((b - 1) / 64) 4) as B4.
  pose proof (div32 ((b - 1) / 64 / 4)) as B5.
  destruct (excess_rmq_long t (R l) _ Ht a b) as (w & -> & Hw & Hw'); [unfold a, b in *; lia|unfold a, b in *; lia|]. cbn [bind].
  set (sa := (a / 64 / 4 + 1) / 32) in *. set (sb := (b - 1) / 64 / 4 / 32) in *.
  assert (Hout : w <= z_ l j \/ z_ l (j + 1) < w). { rewrite Em, Em'. unfold a, b in *. lia. }
  set (f := bitat (v_words (rs_bv (bp_rs t)))).
  assert (Hf : forall q, f q = nth q (R l) false) by (intros q; apply (repr_bits _ _ (ro_repr _ _ Hrs))).
  assert (HE : E f w = (Z.of_nat w - 2 * Z.of_nat (rank false (R l) w))%Z) by (apply E_zeros; [exact Hf|lia]).
  set (r0 := rank false (R l) w) in *.
  assert (Hr1 : 1 <= r0). { pose proof (rank_mono false (R l) a w ltac:(lia)) as H1. unfold a in H1. rewrite <- Ex, HzE in H1 by lia. unfold r0. lia. }
  assert (Hr2 : r0 <= i + 1 + j). { pose proof (rank_mono false (R l) w b ltac:(lia)) as H1. unfold b in H1. rewrite <- Ey, HzE in H1 by lia. unfold r0. lia. }
  assert (Hr3 : r0 <> j + 1).
  { destruct Hout as [Ho|Ho].
    - pose proof (rank_mono false (R l) _ _ Ho) as H1. rewrite HzE in H1 by lia. unfold r0. lia.
    - pose proof (rank_mono false (R l) (z_ l (j + 1) + 1) w ltac:(lia)) as H1. rewrite HzS in H1 by lia. unfold r0. lia. }
  rewrite HE. replace (Z.of_nat w - (Z.of_nat w - 2 * Z.of_nat r0))%Z with (Z.of_nat r0 * 2)%Z by lia. rewrite Z.mod_small by lia. rewrite Z.div_mul by lia. rewrite Nat2Z.id.
  replace (Z.of_nat (j + 2) - 2 * Z.of_nat (i + 1 + j - (i + j) - 1))%Z with (Z.of_nat (j + 2)) by lia.
  rewrite to_i32_id, i32_ok by lia. cbn [bind]. destruct (_ <=? _)%Z.
  - exists (i + j). split; [reflexivity|]. split; [reflexivity|]. lia.
  - destruct (Nat.ltb_spec (i + 1 + j) r0); [lia|]. exists (i + 1 + j - r0). split; [reflexivity|]. split; [reflexivity|]. lia.
Qed.

Theorem rmq_wrong n : (1073741823 <= n <= 1431655764)%N ->
  exists l t p q, N.of_nat (length l) = n /\ ct_build l = Ok t /\ ct_rmq t 0 (length l - 1) = Ok p /\ q < length l /\ p < length l /\ nth q l 0 < nth p l 0.
Proof.
  intros Hn. set (i := N.to_nat (n / 2)). set (j := N.to_nat n - 1 - i).
  assert (Hd : (n = 2 * (n / 2) + n mod 2)%N) by (apply N.div_mod; lia). pose proof (N.mod_upper_bound n 2).
  assert (Hi : N.of_nat i = (n / 2)%N) by (unfold i; apply N2Nat.id).
  destruct (rmq_long i j) as (t & p & E1 & E2 & Hp & Hne); [unfold j; lia..|].
  exists (valley i j), t, p, i. rewrite valley_length. split; [unfold j; lia|]. split; [exact E1|]. split; [replace (i + 1 + j - 1) with (i + j) by lia; exact E2|].
  split; [lia|]. split; [lia|]. rewrite !valley_nth by lia. rewrite Nat.eqb_refl. destruct (Nat.eqb_spec p i); [congruence|lia].
Qed.
