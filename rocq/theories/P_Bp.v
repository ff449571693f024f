(** bp_vector::excess_rmq returns the leftmost position of the minimal excess. *)
From Coq Require Import ZArith.
From Verif Require Import Base S_Bits M_Word M_Bits P_BitsRead M_Darray M_Rs M_Bp P_Word P_Bits P_Rank P_Rs P_Scan P_BpWord P_BpTree P_BpBuild.
Local Open Scope nat_scope.

Section Rmq.
  Variables (p : bpv) (l : list bool).
  Hypothesis Hp : bp_ok p l.
  Notation ws := (v_words (rs_bv (bp_rs p))).
  Notation f := (bitat ws).
  Notation mins := (bp_block_min p).
  Let bm (k : nat) : Z := (E f (256 * (32 * (k / 32))%nat) + nth k mins 0)%Z.

  Lemma fit : length l <= 64 * length ws.
  Proof. exact (repr_fit _ _ _ (ro_repr _ _ (bo_rs _ _ Hp)) (le_n _)). Qed.
  Lemma bm_near k : k < length mins -> near (bm k).
  Proof. intros Hk. pose proof fit. destruct (bo_mins _ _ Hp k Hk) as [(q & Hq & Eq) _]. fold (bm k) in Eq. rewrite <- Eq. apply (bo_near _ _ Hp). lia. Qed.
  Lemma bm_window k : 256 * k + 256 <= length l -> is_min (E f) (256 * k) (256 * k + 256 + 1) (bm k).
  Proof.
    intros Hk. pose proof fit as Hf. assert (Hlt : k < length mins).
    { rewrite (bo_mins_len _ _ Hp). unfold ceil_div. apply Nat.div_le_lower_bound; lia. }
    pose proof (bo_mins _ _ Hp k Hlt) as Hm. fold (bm k) in Hm. replace (Nat.min (256 * k + 256) (length l)) with (256 * k + 256) in Hm by lia. exact Hm.
  Qed.
  Lemma mins_of k : 256 * k < length l -> k < length mins.
  Proof. intros H. pose proof fit. rewrite (bo_mins_len _ _ Hp). unfold ceil_div. apply Nat.div_le_lower_bound; lia. Qed.
  Lemma bexc k : 256 * k < length l -> block_excess (bp_rs p) k = Ok (E f (256 * k)).
  Proof. intros H. pose proof fit. apply (block_excess_ok _ l); [apply (bo_rs _ _ Hp)|lia|]. apply (bo_near _ _ Hp). lia. Qed.

  Lemma rmq_blocks_ok s n : forall b mn idx, 32 * s <= b -> b + n <= 32 * s + 32 -> b + n <= length mins ->
    exists mn' k, rmq_blocks mins (E f (256 * (32 * s))) n b mn idx = Ok (mn', opt_or k idx) /\ scan bm b (b + n) mn mn' k.
  Proof.
    induction n as [|n IH]; intros b mn idx H1 H2 H3.
    - exists mn, None. split; [reflexivity|]. apply scan_empty. lia.
    - cbn [rmq_blocks]. rewrite (get_nth mins b 0%Z) by lia. cbn [bind].
      assert (Eb : (E f (256 * (32 * s)) + nth b mins 0 = bm b)%Z). { unfold bm. do 4 f_equal. apply (Nat.div_unique b 32 s (b - 32 * s)); lia. }
      rewrite Eb. pose proof (bm_near b ltac:(lia)) as Hb. unfold near in Hb. rewrite i32_ok by lia. cbn [bind]. pose proof (scan_one bm b mn) as Hs.
      assert (Ha : b <= b + 1 <= b + 1) by lia. assert (Hc : b + 1 <= b + 1 + n) by lia. replace (b + S n) with (b + 1 + n) by lia.
      destruct (bm b <? mn)%Z.
      + destruct (IH (b + 1) (bm b) (Some b)) as (mn' & k & -> & Hs'); [lia..|]. exists mn', (opt_or k (Some b)). split; [now destruct k|].
        exact (scan_app _ _ _ _ _ _ _ _ _ _ Ha Hc Hs Hs').
      + destruct (IH (b + 1) mn idx) as (mn' & k & -> & Hs'); [lia..|]. exists mn', (opt_or k None). split; [now destruct k|].
        exact (scan_app _ _ _ _ _ _ _ _ _ _ Ha Hc Hs Hs').
  Qed.
  Lemma rmq_superblock_ok s start stop mn idx : 32 * s <= start -> start <= stop -> stop <= 32 * s + 32 -> 256 * stop <= length l ->
    exists mn' k, rmq_superblock p start stop mn idx = Ok (mn', opt_or k idx) /\ scan bm start stop mn mn' k.
  Proof.
    intros H1 H2 H3 H4. unfold rmq_superblock. destruct (Nat.eqb_spec start stop) as [->|Hne].
    - exists mn, None. split; [reflexivity|]. apply scan_empty. lia.
    - replace (start / 32) with s by (apply (Nat.div_unique start 32 s (start - 32 * s)); lia). rewrite bexc by lia. cbn [bind].
      replace (256 * (s * 32)) with (256 * (32 * s)) by lia. pose proof (mins_of (stop - 1) ltac:(lia)).
      destruct (rmq_blocks_ok s (stop - start) start mn idx) as (mn' & k & -> & Hs); [lia..|]. exists mn', k. split; [reflexivity|]. replace stop with (start + (stop - start)) by lia. assumption.
  Qed.
  Lemma scan_none_weaken g x y m m' k mn : (m' <= mn)%Z -> scan g x y mn m k -> (mn <= m)%Z -> m' = m' -> scan g x y m' m' None.
  Proof.
    intros H1 H2 H3 _. split; [reflexivity|]. intros q Hq. destruct k as [v|]; [destruct H2; lia|]. destruct H2 as [_ H2]. specialize (H2 q Hq). lia.
  Qed.

  (** Superblocks sa, ..., sb - 1: first their minima, then the superblock found. *)
  Lemma rmq_supers_ok sa sb mn bmin bidx : sa <= sb -> 256 * (32 * sb) <= length l -> (bmin <= mn)%Z ->
    exists bmin' k, (do (smin, sidx) <- find_min_superblock p sa sb mn None;
      if (smin <? mn)%Z then match sidx with None => UB | Some s => rmq_superblock p (s * 32) ((s + 1) * 32) bmin bidx end else Ok (bmin, bidx)) = Ok (bmin', opt_or k bidx) /\
      scan bm (32 * sa) (32 * sb) bmin bmin' k.
  Proof.
    intros H1 H2 H3. destruct (bo_tree _ _ Hp) as (H & nsb & sm & Hn & Ht & Hsm). change (fun k => _) with bm in Hsm.
    assert (Hsb : 32 * sb <= length mins). { destruct sb as [|sb]; [lia|]. pose proof (mins_of (32 * S sb - 1) ltac:(lia)). lia. }
    assert (Hnsb : sb <= nsb). { rewrite Hn. unfold ceil_div. apply Nat.div_le_lower_bound; lia. }
    assert (Hw : forall s, sa <= s < sb -> is_min bm (32 * s) (32 * s + 32) (sm s)). { intros s Hs. specialize (Hsm s ltac:(lia)). replace (Nat.min _ _) with (32 * s + 32) in Hsm by lia. exact Hsm. }
    assert (Hof : forall q, 32 * sa <= q < 32 * sb -> exists s, sa <= s < sb /\ 32 * s <= q < 32 * s + 32).
    { intros q Hq. exists (q / 32). pose proof (Nat.div_mod q 32). pose proof (Nat.mod_upper_bound q 32). lia. }
    destruct (find_min_superblock_ok p H nsb sm sa sb mn Ht ltac:(lia)) as (v & k & -> & Hv). cbn [bind]. destruct Hv as [[Hl Hs]|[Hl Hs]].
    - destruct (Z.ltb_spec v mn); [|lia]. destruct k as [s|]; [|destruct Hs; lia]. destruct Hs as (_ & S2 & S3 & S4 & S5).
      destruct (rmq_superblock_ok s (s * 32) ((s + 1) * 32) bmin bidx) as (bmin' & k & -> & Hk); [lia..|].
      exists bmin', k. split; [reflexivity|]. replace (s * 32) with (32 * s) in Hk by lia. replace ((s + 1) * 32) with (32 * s + 32) in Hk by lia. destruct (Hw s S2) as [(x & Hx & Ex) Hall].
      destruct k as [b|].
      + destruct Hk as (K1 & K2 & K3 & K4 & K5). assert (Ev : bmin' = v). { specialize (K4 x Hx). specialize (Hall b K2). lia. }
        cbn. split; [assumption|]. split; [lia|]. split; [assumption|]. split.
        * intros q Hq. destruct (Hof q Hq) as (t & Ht1 & Ht2). specialize (S4 t Ht1). pose proof (is_min_le _ _ _ _ q (Hw t Ht1) Ht2). lia.
        * intros q Hq. destruct (Nat.lt_ge_cases q (32 * s)); [|apply K5; lia]. destruct (Hof q) as (t & Ht1 & Ht2); [lia|]. specialize (S5 t). pose proof (is_min_le _ _ _ _ q (Hw t Ht1) Ht2). lia.
      + destruct Hk as [-> Hk]. split; [reflexivity|]. intros q Hq. destruct (Hof q Hq) as (t & Ht1 & Ht2). specialize (S4 t Ht1). pose proof (is_min_le _ _ _ _ q (Hw t Ht1) Ht2).
        specialize (Hk x Hx). lia.
    - destruct (Z.ltb_spec v mn); [lia|]. exists bmin, None. split; [reflexivity|]. split; [reflexivity|]. destruct Hs as [_ Hs]. intros q Hq.
      destruct (Hof q Hq) as (t & Ht1 & Ht2). specialize (Hs t Ht1). pose proof (is_min_le _ _ _ _ q (Hw t Ht1) Ht2). lia.
  Qed.

  Lemma div_lt32 x : 32 * (x / 32) <= x < 32 * (x / 32) + 32.
  Proof. pose proof (Nat.div_mod x 32). pose proof (Nat.mod_upper_bound x 32). lia. Qed.
  (** Blocks ba1, ..., bb - 1. *)
  Definition mid (ba1 bb : nat) (mn : Z) : res (Z * option nat) :=
    let sa := ba1 / 32 in
    let sb := bb / 32 in
    if sa =? sb then rmq_superblock p ba1 bb mn None
    else
      do (bmin, bidx) <- rmq_superblock p ba1 ((sa + 1) * 32) mn None;
      do (smin, sidx) <- find_min_superblock p (sa + 1) sb mn None;
      do (bmin, bidx) <-
        (if (smin <? mn)%Z then
           match sidx with
           | None => UB
           | Some s => rmq_superblock p (s * 32) ((s + 1) * 32) bmin bidx
           end
         else Ok (bmin, bidx));
      rmq_superblock p (sb * 32) bb bmin bidx.
  Lemma bind_assoc {A B C} (x : res A) (g : A -> res B) (h : B -> res C) : bind (bind x g) h = bind x (fun y => bind (g y) h).
  Proof. now destruct x. Qed.
  Lemma mid_ok ba1 bb mn : ba1 <= bb -> 256 * bb <= length l ->
    exists bmin k, mid ba1 bb mn = Ok (bmin, k) /\ scan bm ba1 bb mn bmin k.
  Proof.
    intros H1 H2. unfold mid. cbv zeta. pose proof (div_lt32 ba1) as Ha. pose proof (div_lt32 bb) as Hb.
    assert (Hab : ba1 / 32 <= bb / 32) by (apply Nat.div_le_mono; lia). set (sa := ba1 / 32) in *. set (sb := bb / 32) in *.
    destruct (Nat.eqb_spec sa sb) as [Es|Hne].
    - destruct (rmq_superblock_ok sa ba1 bb mn None) as (m & k & -> & Hs); [lia..|]. exists m, k. split; [now destruct k|assumption].
    - destruct (rmq_superblock_ok sa ba1 ((sa + 1) * 32) mn None) as (m1 & k1 & -> & Hs1); [lia..|]. cbn [bind].
      destruct (rmq_supers_ok (sa + 1) sb mn m1 (opt_or k1 None)) as (m2 & k2 & E2 & Hs2); [lia|lia|apply (scan_le _ _ _ _ _ _ Hs1)|].
      match type of E2 with bind ?x _ = _ => set (fm := x) in * end.
      match goal with |- exists _ _, ?t = _ /\ _ => replace t with (do (bmin, bidx) <- (do (smin, sidx) <- fm; if (smin <? mn)%Z then match sidx with None => UB | Some s => rmq_superblock p (s * 32) ((s + 1) * 32) m1 (opt_or k1 None) end else Ok (m1, opt_or k1 None)); rmq_superblock p (sb * 32) bb bmin bidx) end.
      2:{ destruct fm as [[? ?]| | |]; reflexivity. }
      rewrite E2. cbn [bind]. destruct (rmq_superblock_ok sb (sb * 32) bb m2 (opt_or k2 (opt_or k1 None))) as (m3 & k3 & -> & Hs3); [lia..|].
      exists m3, (opt_or k3 (opt_or k2 k1)). split; [now destruct k1, k2, k3|].
      refine (scan_app bm ba1 (32 * sb) (sb * 32) bb mn m2 m3 _ _ ltac:(lia) ltac:(lia) _ Hs3).
      exact (scan_app bm ba1 ((sa + 1) * 32) (32 * (sa + 1)) (32 * sb) mn m1 m2 _ _ ltac:(lia) ltac:(lia) Hs1 Hs2).
  Qed.

  Lemma scan_final a b mn k : scan (E f) a (b + 1) (E f a) mn k -> a <= b ->
    let i := idx_upd k a in a <= i <= b /\ mn = E f i /\ (forall q, a <= q <= b -> (E f i <= E f q)%Z) /\ (forall q, a <= q < i -> (E f i < E f q)%Z).
  Proof.
    intros Hs Hab. destruct k as [i|]; cbn.
    - destruct Hs as (H1 & H2 & H3 & H4 & H5). rewrite H3. split; [lia|]. split; [reflexivity|]. split; [intros q Hq; apply H4; lia|assumption].
    - destruct Hs as [-> H]. split; [lia|]. split; [reflexivity|]. split; [intros q Hq; apply H; lia|intros; lia].
  Qed.

  Lemma excess_ok pos : pos <= length l -> excess (bp_rs p) pos = Ok (E f pos).
  Proof.
    intros H. unfold excess. rewrite (rs_rank_list _ l) by (try assumption; apply (bo_rs _ _ Hp)). cbn [bind]. f_equal.
    assert (Er : rank true l pos = cnt f pos). { rewrite rank_true. apply cnt_ext. intros j _. symmetry. apply (repr_bits _ _ (ro_repr _ _ (bo_rs _ _ Hp))). }
    rewrite Er. pose proof fit. pose proof (bo_near _ _ Hp pos ltac:(lia)) as Hn. apply to_i32_id. unfold near in Hn. change (-2147483648 <= E f pos <= 2147483647)%Z. lia.
  Qed.

  Theorem excess_rmq_ok a b : a <= b <= length l ->
    exists i, excess_rmq p a b = Ok (i, E f i) /\ a <= i <= b /\ (forall q, a <= q <= b -> (E f i <= E f q)%Z) /\ (forall q, a <= q < i -> (E f i < E f q)%Z).
  Proof.
    intros Hab. pose proof fit as Hfit. unfold excess_rmq. cbv zeta. rewrite excess_ok by lia. cbn [bind].
    destruct (Nat.eqb_spec a b) as [<-|Hne].
    { exists a. split; [reflexivity|]. split; [lia|]. split; [|intros; lia]. intros q Hq. replace q with a by lia. lia. }
    assert (Hfin : forall r, (exists mn k, r = Ok (idx_upd k a, mn) /\ scan (E f) a (b + 1) (E f a) mn k) ->
       exists i, r = Ok (i, E f i) /\ a <= i <= b /\ (forall q, a <= q <= b -> (E f i <= E f q)%Z) /\ (forall q, a <= q < i -> (E f i < E f q)%Z)).
    { intros r (mn & k & -> & Hs). destruct (scan_final a b mn k Hs ltac:(lia)) as (H1 & -> & H2). exists (idx_upd k a). split; [reflexivity|]. split; [assumption|exact H2]. }
    apply Hfin. clear Hfin.
    pose proof (Nat.div_mod a 64) as Da. pose proof (Nat.mod_upper_bound a 64) as Ua. set (wa := a / 64) in *. set (ra := a mod 64) in *.
    pose proof (Nat.div_mod (b - 1) 64) as Db. pose proof (Nat.mod_upper_bound (b - 1) 64) as Ub. set (wb := (b - 1) / 64) in *.
    rewrite (get_nth ws wa 0%N) by lia. cbn [bind]. rewrite shr_ok by lia. cbn [bind]. set (sub := Nat.min (64 - ra) (b - a)). set (w0 := N.shiftr _ _).
    assert (Hw0 : forall j, j < sub -> tb w0 j = f (a + j)).
    { intros j Hj. unfold w0, tb. rewrite N.shiftr_spec'. replace (N.of_nat j + N.of_nat ra)%N with (N.of_nat (ra + j)) by lia. replace (a + j) with (64 * wa + (ra + j)) by lia. rewrite bitat_eq by lia. reflexivity. }
    assert (Hpad : exists w1, (if sub =? 64 then Ok w0 else pad_ones w0 sub) = Ok w1).
    { destruct (Nat.eqb_spec sub 64); [now eexists|]. unfold pad_ones. rewrite shl_ok by lia. cbn [bind]. now eexists. }
    destruct Hpad as (w1 & Hw1). rewrite Hw1. cbn [bind].
    destruct (rmq_padded ws (bo_near _ _ Hp) w0 w1 a a sub (E f a) a ltac:(lia) ltac:(lia) Hw0 eq_refl Hw1) as (m1 & k1 & -> & Hs1). cbn [bind].
    destruct (Nat.eqb_spec wa wb) as [Ew|Hwne].
    { exists m1, k1. split; [reflexivity|]. replace (b + 1) with (a + sub + 1) by lia. assumption. }
    assert (Hww : wa < wb) by lia. assert (Esub : a + sub = 64 * (wa + 1)) by lia. rewrite Esub in *.
    pose proof (bo_near _ _ Hp) as Hnear. pose proof (Hnear (64 * (wa + 1)) ltac:(lia)) as Hn. unfold near in Hn. rewrite i32_ok by lia. cbn [bind].
    replace (E f (64 * (wa + 1)) + (64 - Z.of_nat sub) - (64 - Z.of_nat sub))%Z with (E f (64 * (wa + 1))) by lia.
    (* everything before word b *)
    match goal with |- exists mn k, (do st <- ?e; _) = _ /\ _ => assert (Hmain : exists m2 k2 e2, e = Ok (E f (64 * wb), m2, idx_upd k2 a) /\ 64 * wb <= e2 <= 64 * wb + 1 /\ scan (E f) a e2 (E f a) m2 k2) end.
    { pose proof (Nat.div_mod wa 4) as D4. pose proof (Nat.mod_upper_bound wa 4) as U4. set (ba := wa / 4) in *.
      pose proof (Nat.div_mod wb 4) as D4'. pose proof (Nat.mod_upper_bound wb 4) as U4'. set (bb := wb / 4) in *.
      destruct (Nat.eqb_spec ba bb) as [Eb|Hbne].
      - destruct (rmq_words_ok ws Hnear (wb - (wa + 1)) (wa + 1) m1 (idx_upd k1 a)) as (m2 & k2 & -> & Hs2); [lia|]. rewrite <- idx_upd_or.
        replace (wa + 1 + (wb - (wa + 1))) with wb in * by lia. exists m2, (opt_or k2 k1), (64 * wb + 1). split; [reflexivity|]. split; [lia|].
        destruct (Nat.eqb_spec (wb - (wa + 1)) 0) as [Hz|Hz].
        + replace wb with (wa + 1) by lia. destruct k2; [destruct Hs2 as (_ & ? & _); lia|]. destruct Hs2 as [-> _]. exact Hs1.
        + assert (Ha1 : a <= 64 * (wa + 1) <= 64 * (wa + 1) + 1) by lia. refine (scan_app _ _ _ _ _ _ _ _ _ _ Ha1 _ Hs1 Hs2); lia.
      - destruct (rmq_words_ok ws Hnear ((ba + 1) * 4 - (wa + 1)) (wa + 1) m1 (idx_upd k1 a)) as (m2 & k2 & -> & Hs2); [lia|]. rewrite <- idx_upd_or. cbn [bind].
        replace (wa + 1 + ((ba + 1) * 4 - (wa + 1))) with (4 * (ba + 1)) in Hs2 by lia.
        assert (Hs12 : scan (E f) a (256 * (ba + 1) + 1) (E f a) m2 (opt_or k2 k1)).
        { destruct (Nat.eqb_spec ((ba + 1) * 4 - (wa + 1)) 0) as [Hz|Hz].
          - replace (256 * (ba + 1)) with (64 * (wa + 1)) by lia. destruct k2; [destruct Hs2 as (_ & ? & _); lia|]. destruct Hs2 as [-> _]. exact Hs1.
          - replace (256 * (ba + 1)) with (64 * (4 * (ba + 1))) by lia. assert (Ha1 : a <= 64 * (wa + 1) <= 64 * (wa + 1) + 1) by lia. refine (scan_app _ _ _ _ _ _ _ _ _ _ Ha1 _ Hs1 Hs2); lia. }
        clear Hs1 Hs2. match goal with |- exists _ _ _, (do st <- ?e; _) = _ /\ _ => change e with (mid (ba + 1) bb m2) end.
        assert (Hbb : 256 * bb < length l) by lia. destruct (mid_ok (ba + 1) bb m2 ltac:(lia) ltac:(lia)) as (bmin & kb & -> & Hsb). cbn [bind].
        match goal with |- exists _ _ _, (do st <- ?e; _) = _ /\ _ => assert (Hblk : exists m3 k3 e3, e = Ok (m3, idx_upd k3 a) /\ 256 * bb <= e3 <= 256 * bb + 1 /\ scan (E f) a e3 (E f a) m3 k3) end.
        { assert (Hwin : forall k, ba + 1 <= k < bb -> is_min (E f) (256 * k) (256 * k + 256 + 1) (bm k)) by (intros k Hk; apply bm_window; lia).
          destruct kb as [k|].
          - pose proof Hsb as (B1 & B2 & _). destruct (Z.ltb_spec bmin m2); [|lia]. rewrite bexc by lia. cbn [bind].
            replace (256 * k) with (64 * (k * 4)) by lia. destruct (rmq_words_ok ws Hnear 4 (k * 4) m2 (idx_upd (opt_or k2 k1) a)) as (m3 & k3 & -> & Hs3); [lia|]. cbn [bind Nat.eqb] in *.
            rewrite <- idx_upd_or. replace (64 * (k * 4)) with (256 * k) in Hs3 by lia. replace (64 * (k * 4 + 4) + 1) with (256 * k + 256 + 1) in Hs3 by lia.
            destruct (scan_windows_some (E f) bm 256 ltac:(lia) (ba + 1) bb Hwin m2 bmin k m3 k3 Hsb Hs3) as (q & -> & Hs3'). do 2 eexists. exists (256 * bb + 1). split; [reflexivity|]. split; [lia|].
            assert (Ha1 : a <= 256 * (ba + 1) <= 256 * (ba + 1) + 1) by lia. refine (scan_app _ _ _ _ _ _ _ _ _ _ Ha1 _ Hs12 Hs3'); lia.
          - pose proof Hsb as [-> _]. rewrite Z.ltb_irrefl. pose proof (scan_windows_none (E f) bm 256 ltac:(lia) (ba + 1) bb Hwin m2 Hsb) as Hs3.
            exists m2, (opt_or k2 k1). destruct (Nat.eq_dec (ba + 1) bb) as [Eb|Hn0].
            + exists (256 * bb + 1). split; [reflexivity|]. split; [lia|]. rewrite <- Eb. assumption.
            + exists (256 * bb). split; [reflexivity|]. split; [lia|]. assert (Ha1 : a <= 256 * (ba + 1) <= 256 * (ba + 1) + 1) by lia.
              refine (scan_app _ _ _ _ _ _ _ _ _ _ Ha1 _ Hs12 Hs3); lia. }
        destruct Hblk as (m3 & k3 & e3 & -> & He3 & Hs3). cbn [bind]. rewrite bexc by lia. cbn [bind].
        replace (256 * bb) with (64 * (bb * 4)) by lia. destruct (rmq_words_ok ws Hnear (wb - bb * 4) (bb * 4) m3 (idx_upd k3 a)) as (m4 & k4 & -> & Hs4); [lia|].
        rewrite <- idx_upd_or. replace (bb * 4 + (wb - bb * 4)) with wb in * by lia. exists m4, (opt_or k4 k3). destruct (Nat.eqb_spec (wb - bb * 4) 0) as [Hz|Hz].
        + exists e3. split; [reflexivity|]. split; [lia|]. destruct k4; [destruct Hs4 as (_ & ? & _); lia|]. destruct Hs4 as [-> _]. exact Hs3.
        + exists (64 * wb + 1). split; [reflexivity|]. split; [lia|]. assert (Ha1 : a <= 64 * (bb * 4) <= e3) by lia. refine (scan_app _ _ _ _ _ _ _ _ _ _ Ha1 _ Hs3 Hs4); lia. }
    destruct Hmain as (m2 & k2 & e2 & -> & He2 & Hs2). cbn [bind]. rewrite (get_nth ws wb 0%N) by lia. cbn [bind].
    set (len := b - 64 * wb). assert (Hlen : 0 < len <= 64) by lia.
    assert (Hmod : b mod 64 = if len =? 64 then 0 else len).
    { destruct (Nat.eqb_spec len 64); symmetry; [apply (Nat.mod_unique b 64 (wb + 1))|apply (Nat.mod_unique b 64 wb)]; lia. }
    assert (Hpad : exists w2, (if b mod 64 =? 0 then Ok (nth wb ws 0%N) else pad_ones (nth wb ws 0%N) (b mod 64)) = Ok w2 /\ (if len =? 64 then Ok (nth wb ws 0%N) else pad_ones (nth wb ws 0%N) len) = Ok w2).
    { rewrite Hmod. destruct (Nat.eqb_spec len 64); [now eexists|]. destruct (Nat.eqb_spec len 0); [lia|]. unfold pad_ones. rewrite shl_ok by lia. cbn [bind]. now eexists. }
    destruct Hpad as (w2 & -> & Hw2). cbn [bind].
    destruct (rmq_padded ws Hnear (nth wb ws 0%N) w2 (wb * 64) (64 * wb) len m2 (idx_upd k2 a) ltac:(lia) Hlen) as (m3 & k3 & -> & Hs3); [|lia|exact Hw2|].
    { intros j Hj. rewrite bitat_eq by lia. reflexivity. }
    cbn [bind]. rewrite <- idx_upd_or. do 2 eexists. split; [reflexivity|]. replace (64 * wb + len + 1) with (b + 1) in Hs3 by lia.
    assert (Ha1 : a <= 64 * wb <= e2) by lia. refine (scan_app _ _ _ _ _ _ _ _ _ _ Ha1 _ Hs2 Hs3); lia.
  Qed.
End Rmq.
