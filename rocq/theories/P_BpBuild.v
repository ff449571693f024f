(** Building bp_vector: block minima, superblock minima, tree. *)
From Coq Require Import ZArith.
From Verif Require Import Base S_Bits M_Word M_Bits P_BitsRead M_Darray M_Rs M_Bp P_Word P_Bits P_Rank P_Rs P_Scan P_BpWord P_BpTree.
Local Open Scope nat_scope.

(** What build_min_tree establishes, for f the bits. *)
Record bp_ok (p : bpv) (l : list bool) : Prop := {
  bo_rs : rs_ok (bp_rs p) l;
  bo_small : (Z.of_nat (length l) <= 2147483647)%Z;
  bo_near : forall q, q <= 64 * length (v_words (rs_bv (bp_rs p))) -> near (E (bitat (v_words (rs_bv (bp_rs p)))) q);
  bo_mins_len : length (bp_block_min p) = ceil_div (length (v_words (rs_bv (bp_rs p)))) 4;
  bo_mins : forall k, k < length (bp_block_min p) ->
    is_min (E (bitat (v_words (rs_bv (bp_rs p))))) (256 * k) (Nat.min (256 * k + 256) (length l) + 1) (E (bitat (v_words (rs_bv (bp_rs p)))) (256 * (32 * (k / 32))) + nth k (bp_block_min p) 0)%Z;
  bo_tree : exists H nsb sm, nsb = ceil_div (length (bp_block_min p)) 32 /\ tree_ok (bp_tree p) (bp_internal p) H nsb sm /\
    forall s, s < nsb -> is_min (fun k => (E (bitat (v_words (rs_bv (bp_rs p)))) (256 * (32 * (k / 32))%nat) + nth k (bp_block_min p) 0)%Z) (32 * s) (Nat.min (32 * s + 32) (length (bp_block_min p))) (sm s);
  bo_nodes : forall v, 1 <= v < bp_internal p -> let val c := if c <? length (bp_tree p) then nth c (bp_tree p) 0%Z else Z.of_nat (length l) in
    nth v (bp_tree p) 0%Z = Z.min (Z.of_nat (length l)) (Z.min (val (2 * v)) (val (2 * v + 1)))
}.

Lemma block_excess_ok r l k : rs_ok r l -> 4 * k < length (v_words (rs_bv r)) -> near (E (bitat (v_words (rs_bv r))) (256 * k)) ->
  block_excess r k = Ok (E (bitat (v_words (rs_bv r))) (256 * k)).
Proof.
  intros Hr Hk Hn. unfold block_excess. rewrite (sub_block_rank_ok (v_words (rs_bv r)) (repr_words _ _ (ro_repr _ _ Hr)) r (ro_pairs _ _ Hr)) by lia. cbn [bind].
  f_equal. replace (64 * (k * 4)) with (256 * k) by lia. replace (k * 4 * 64) with (256 * k) by lia. rewrite nat_N_Z. apply to_i32_id. unfold near in Hn. lia.
Qed.

Section Mins.
  Variables (ws : list N) (size : nat).
  Notation f := (bitat ws).
  Hypothesis Hsize : size <= 64 * length ws /\ 64 * length ws < size + 64.
  Hypothesis Hpos : 0 < size.

  Lemma min_bits_ok w a lo B n : forall i s c, (forall j, j < i + n -> tb w j = f (a + j)) -> lo <= a + i -> s = (E f (a + i) - B)%Z -> is_min (E f) lo (a + i + 1) (B + c)%Z ->
    exists c', min_bits w n i s c = ((E f (a + i + n) - B)%Z, c') /\ is_min (E f) lo (a + i + n + 1) (B + c')%Z.
  Proof.
    induction n as [|n IH]; intros i s c Hb Hlo -> Hm.
    - exists c. cbn [min_bits]. rewrite !Nat.add_0_r. now split.
    - cbn [min_bits]. rewrite Hb by lia. assert (Es : (E f (a + i) - B + (if f (a + i)%nat then 1 else -1) = E f (a + (i + 1)) - B)%Z).
      { replace (a + (i + 1)) with (S (a + i)) by lia. rewrite E_S. lia. }
      rewrite Es. destruct (IH (i + 1) (E f (a + (i + 1)) - B)%Z (Z.min c (E f (a + (i + 1)) - B))) as (c' & E1 & H1).
      + intros j Hj. apply Hb. lia.
      + lia.
      + reflexivity.
      + replace (B + Z.min c (E f (a + (i + 1)) - B))%Z with (Z.min (B + c) (E f (a + (i + 1)))) by lia.
        apply (is_min_app _ _ (a + i + 1) (a + i + 1)); [lia|lia|assumption|]. replace (a + (i + 1)) with (a + i + 1) by lia. now apply is_min_one.
      + exists c'. rewrite E1. replace (a + (i + 1) + n) with (a + i + S n) in * by lia. split; [reflexivity|assumption].
  Qed.

  Definition base (i : nat) : nat := 256 * (32 * (i / 128)).
  Definition done (m : nat) (mins : list Z) : Prop := length mins = m /\ forall k, k < m -> is_min (E f) (256 * k) (256 * k + 257) (E f (256 * (32 * (k / 32))%nat) + nth k mins 0)%Z.
  Lemma i16 i c e : 256 * (i / 4) < e -> e <= 64 * i + 65 -> is_min (E f) (256 * (i / 4)) e (E f (base i) + c)%Z -> to_i16 c = c.
  Proof.
    intros He1 He2 [(q & Hq & Eq) _]. unfold base in *. pose proof (Nat.div_mod i 128) as H1. pose proof (Nat.mod_upper_bound i 128). pose proof (Nat.div_mod i 4) as H2. pose proof (Nat.mod_upper_bound i 4).
    assert (Hd : i / 128 = i / 4 / 32) by (rewrite Nat.div_div by lia; reflexivity). pose proof (Nat.div_mod (i / 4) 32) as H3. 
    set (x := i / 128) in *. set (y := i / 4) in *. assert (Hb : 256 * (32 * x) <= q) by lia. assert (q <= 256 * (32 * x) + 256 * 32) by lia.
    replace q with (256 * (32 * x) + (q - 256 * (32 * x))) in Eq by lia. rewrite E_add in Eq. pose proof (E_bound (fun z => f (256 * (32 * x) + z)) (q - 256 * (32 * x))).
    unfold to_i16. rewrite Z.mod_small by lia. lia.
  Qed.
  Lemma block_base i : 256 * (32 * ((i / 4) / 32)) = base i.
  Proof. unfold base. rewrite Nat.div_div by lia. reflexivity. Qed.

  Lemma done_push i mins c e : done (i / 4) mins -> is_min (E f) (256 * (i / 4)) (256 * (i / 4) + 257) (E f (base i) + c)%Z -> e = i / 4 + 1 -> done e (mins ++ [c]).
  Proof.
    intros [H1 H2] Hm ->. split; [rewrite app_length; cbn [length]; lia|]. intros k Hk. destruct (Nat.eq_dec k (i / 4)) as [->|Hne].
    - rewrite app_nth2, H1, Nat.sub_diag by lia. cbn [nth]. rewrite block_base. assumption.
    - rewrite app_nth1 by lia. apply H2. lia.
  Qed.

  (** The word number i done up to position e. *)
  Lemma min_words_ok rest : forall pre i s c mins, ws = pre ++ rest -> length pre = i -> rest <> [] ->
    (i = 0 /\ s = 0%Z /\ c = 0%Z /\ mins = [] \/
     i <> 0 /\ s = (E f (64 * i) - E f (base (i - 1)))%Z /\ is_min (E f) (256 * ((i - 1) / 4)) (64 * i + 1) (E f (base (i - 1)) + c)%Z /\ done ((i - 1) / 4) mins) ->
    exists mins', min_words size (length ws) i rest s c mins = mins' /\ length mins' = ceil_div (length ws) 4 /\
      forall k, k < length mins' -> is_min (E f) (256 * k) (Nat.min (256 * k + 256) size + 1) (E f (256 * (32 * (k / 32))%nat) + nth k mins' 0)%Z.
  Proof.
    induction rest as [|w rest IH]; intros pre i s c mins Hws Hpre Hne Hst; [congruence|]. cbn [min_words].
    assert (Hlen : length ws = i + 1 + length rest) by (rewrite Hws, app_length; cbn [length]; lia).
    assert (Hw : w = nth i ws 0%N) by (rewrite Hws, app_nth2, Hpre, Nat.sub_diag by lia; reflexivity).
    set (s1 := if i mod 128 =? 0 then 0%Z else s). set (push := (i mod 4 =? 0) && negb (i =? 0)). set (mins1 := if push then mins ++ [to_i16 c] else mins).
    set (c1 := if push then s1 else c).
    assert (Hpost : s1 = (E f (64 * i) - E f (base i))%Z /\ is_min (E f) (256 * (i / 4)) (64 * i + 1) (E f (base i) + c1)%Z /\ done (i / 4) mins1).
    { destruct Hst as [(-> & -> & -> & ->)|(Hi & Es & Hm & Hd)].
      - unfold s1, c1, mins1, push. cbn. split; [reflexivity|]. split; [|split; [reflexivity|intros; lia]].
        split; [exists 0; split; [lia|reflexivity]|]. intros q Hq. replace q with 0 by lia. cbn. lia.
      - assert (Hi0 : negb (i =? 0) = true) by (destruct (Nat.eqb_spec i 0); [congruence|reflexivity]).
        pose proof (Nat.div_mod i 4) as D4. pose proof (Nat.mod_upper_bound i 4) as U4. pose proof (Nat.div_mod i 128) as D128. pose proof (Nat.mod_upper_bound i 128) as U128.
        assert (Hs1 : s1 = (E f (64 * i) - E f (base i))%Z).
        { unfold s1, base in *. destruct (Nat.eqb_spec (i mod 128) 0) as [Hz|Hz].
          - replace (256 * (32 * (i / 128))) with (64 * i) by lia. lia.
          - replace ((i - 1) / 128) with (i / 128) in Es; [assumption|]. apply (Nat.div_unique _ 128 _ (i mod 128 - 1)); lia. }
        split; [exact Hs1|]. unfold c1, mins1, push. rewrite Hi0, andb_true_r. destruct (Nat.eqb_spec (i mod 4) 0) as [Hz|Hz].
        + assert (E4 : (i - 1) / 4 = i / 4 - 1). { symmetry. apply (Nat.div_unique _ 4 _ 3); lia. }
          split.
          * rewrite Hs1. replace (256 * (i / 4)) with (64 * i) by lia. apply is_min_one. lia.
          * rewrite (i16 (i - 1) c (64 * i + 1)); [|rewrite E4; lia|lia|assumption].
            apply (done_push (i - 1)); [assumption| |lia]. replace (256 * ((i - 1) / 4) + 257) with (64 * i + 1) by (rewrite E4; lia). assumption.
        + assert (E4 : (i - 1) / 4 = i / 4). { symmetry. apply (Nat.div_unique _ 4 _ (i mod 4 - 1)); lia. }
          assert (Eb : base (i - 1) = base i). { unfold base. do 2 f_equal. symmetry. apply (Nat.div_unique _ 128 _ (i mod 128 - 1)); [lia|].
            assert (i mod 128 <> 0); [|lia]. intros Hz'. apply Hz. replace i with (4 * (32 * (i / 128))) by lia. rewrite Nat.mul_comm. apply Nat.mod_mul. lia. }
          rewrite E4, Eb in Hm. rewrite E4 in Hd. split; assumption. }
    clearbody s1 push mins1 c1. clear Hst s c mins. destruct Hpost as (-> & Hm & Hd).
    assert (Hle : 256 * (i / 4) <= 64 * i) by (pose proof (Nat.div_mod i 4); lia).
    set (bits := if (i =? length ws - 1) && negb (size mod 64 =? 0) then size mod 64 else 64).
    assert (Hbits : bits <= 64 /\ (rest <> [] -> bits = 64) /\ (rest = [] -> 64 * i + bits = size)).
    { pose proof (Nat.div_mod size 64) as D. pose proof (Nat.mod_upper_bound size 64) as U. unfold bits. destruct rest as [|w' rest].
      - cbn [length] in Hlen. replace (i =? length ws - 1) with true by (symmetry; apply Nat.eqb_eq; lia). cbn [andb].
        destruct (Nat.eqb_spec (size mod 64) 0) as [Hz|Hz]; cbn [negb]; (split; [lia|]; split; [congruence|]; intros _).
        + assert (size / 64 = i + 1) by lia. lia.
        + assert (size / 64 = i) by lia. lia.
      - cbn [length] in Hlen. replace (i =? length ws - 1) with false by (symmetry; apply Nat.eqb_neq; lia). cbn [andb]. split; [lia|]. split; [reflexivity|discriminate]. }
    destruct (min_bits_ok w (64 * i) (256 * (i / 4)) (E f (base i)) bits 0 (E f (64 * i) - E f (base i))%Z c1) as (c2 & E2 & Hm2).
    - intros j Hj. rewrite Hw. rewrite bitat_eq by lia. reflexivity.
    - lia.
    - now rewrite Nat.add_0_r.
    - now rewrite Nat.add_0_r.
    - rewrite E2. rewrite Nat.add_0_r in *. destruct rest as [|w' rest].
      + cbn [min_words]. destruct Hbits as (Hb1 & _ & Hb2). rewrite Hb2 in Hm2 by reflexivity. eexists. split; [reflexivity|]. cbn [length] in Hlen.
        rewrite (i16 i c2 (size + 1)); [|lia|lia|assumption]. destruct Hd as [Hd1 Hd2]. rewrite app_length, Hd1. cbn [length].
        assert (Hcd : ceil_div (length ws) 4 = i / 4 + 1).
        { unfold ceil_div. pose proof (Nat.div_mod i 4). pose proof (Nat.mod_upper_bound i 4). symmetry. apply (Nat.div_unique _ 4 _ (i mod 4)); lia. }
        split; [congruence|]. intros k Hk. destruct (Nat.eq_dec k (i / 4)) as [->|Hnk].
        * rewrite app_nth2, Hd1, Nat.sub_diag by lia. cbn [nth]. rewrite block_base. replace (Nat.min _ _) with size; [assumption|].
          pose proof (Nat.div_mod i 4). pose proof (Nat.mod_upper_bound i 4). lia.
        * rewrite app_nth1 by lia. replace (Nat.min (256 * k + 256) size + 1) with (256 * k + 257) by lia. apply Hd2. lia.
      + destruct Hbits as (_ & Hb64 & _). specialize (Hb64 ltac:(discriminate)). rewrite Hb64 in Hm2 |- *. apply (IH (pre ++ [w]) (i + 1)).
        * rewrite Hws, <- app_assoc. reflexivity.
        * rewrite app_length. cbn. lia.
        * discriminate.
        * right. replace (i + 1 - 1) with i by lia. replace (64 * (i + 1)) with (64 * i + 64) by lia. split; [lia|]. split; [reflexivity|]. split; assumption.
  Qed.
End Mins.

Lemma leaves_ok n : exists H, loop (n + 1) (leaves_step n) 1 = Ok (2 ^ H) /\ n <= 2 ^ H.
Proof.
  destruct (loop_ok (leaves_step n) (fun c => exists H, c = 2 ^ H) (fun c => n - c) (fun c => (exists H, c = 2 ^ H) /\ n <= c)) with (fuel := n + 1) (s := 1) as (r & E1 & (H & ->) & H1).
  - intros c (H & ->). unfold leaves_step. pose proof (pow_pos H). destruct (Nat.ltb_spec (2 ^ H) n); [|split; [now exists H|assumption]].
    split; [|lia]. exists (S H). reflexivity.
  - now exists 0.
  - lia.
  - now exists H.
Qed.

Section Tree.
  Variables (L internal : nat) (big : Z) (sm : nat -> Z).
  Hypothesis HL : internal < L <= 2 * internal.
  Definition kid (n : nat) (tree : list Z) (c : nat) : Z := if (n <? c) && (c <? L) then nth c tree 0%Z else big.
  (** Nodes n + 1, n + 2, ... have been passed on to their parents. *)
  Definition filled (n : nat) (tree : list Z) : Prop :=
    length tree = L /\ (forall s, internal + s < L -> nth (internal + s) tree 0%Z = sm s) /\
    forall v, 1 <= v < internal -> nth v tree 0%Z = Z.min big (Z.min (kid n tree (2 * v)) (kid n tree (2 * v + 1))).
  Lemma fill_up_ok n : forall tree, n + 1 < L -> filled (n + 1) tree -> exists tree', fill_up n tree = Ok tree' /\ filled 1 tree'.
  Proof.
    induction n as [|n IH]; intros tree Hn (F1 & F2 & F3).
    - exists tree. split; [reflexivity|]. split; [assumption|]. split; assumption.
    - cbn [fill_up]. set (c := S n + 1) in *. pose proof (Nat.div_mod c 2) as Dc. pose proof (Nat.mod_upper_bound c 2) as Uc. set (v := c / 2) in *. assert (Hv : 1 <= v < internal) by lia.
      rewrite (get_nth tree v 0%Z) by lia. rewrite (get_nth tree c 0%Z) by lia. cbn [bind]. rewrite set_ok by lia. cbn [bind].
      set (tree1 := upd tree v _). assert (Hn1 : forall j, nth j tree1 0%Z = if v =? j then Z.min (nth v tree 0%Z) (nth c tree 0%Z) else nth j tree 0%Z).
      { intros j. unfold tree1. rewrite upd_nth. replace (v <? length tree) with true by (symmetry; apply Nat.ltb_lt; lia). now rewrite andb_true_r. }
      destruct (IH tree1) as (tree' & -> & Hf).
      + lia.
      + split; [unfold tree1; now rewrite upd_length|]. split.
        * intros s Hs. rewrite Hn1. destruct (Nat.eqb_spec v (internal + s)); [lia|]. now apply F2.
        * intros u Hu. assert (Hk : forall j, j <> c -> v < j -> kid (n + 1) tree1 j = kid c tree j).
          { intros j Hj Hvj. unfold kid. rewrite Hn1. destruct (Nat.eqb_spec v j); [lia|]. destruct (Nat.ltb_spec (n + 1) j), (Nat.ltb_spec c j); try reflexivity; lia. }
          assert (Hk' : forall j, j <= v -> kid (n + 1) tree1 j = big /\ kid c tree j = big).
          { intros j Hj. unfold kid. destruct (Nat.ltb_spec (n + 1) j); [lia|]. destruct (Nat.ltb_spec c j); [lia|]. now split. }
          assert (Hkc : kid (n + 1) tree1 c = nth c tree 0%Z /\ kid c tree c = big).
          { unfold kid. rewrite Hn1. destruct (Nat.eqb_spec v c); [lia|]. destruct (Nat.ltb_spec (n + 1) c); [|lia]. destruct (Nat.ltb_spec c L); [|lia]. rewrite Nat.ltb_irrefl. now split. }
          assert (Hall : forall j, j <> c -> kid (n + 1) tree1 j = kid c tree j).
          { intros j Hj. destruct (Nat.le_gt_cases j v) as [Hjv|Hjv]; [destruct (Hk' j Hjv) as [-> ->]; reflexivity|now apply Hk]. }
          rewrite Hn1. destruct (Nat.eqb_spec v u) as [<-|Hne].
          -- rewrite F3 by assumption. destruct Hkc as [K1 K2]. destruct (Nat.eq_dec (c mod 2) 0) as [Hz|Hz].
             ++ replace (2 * v) with c by lia. rewrite K1, K2, Hall by lia. lia.
             ++ replace (2 * v + 1) with c by lia. rewrite K1, K2, Hall by lia. lia.
          -- rewrite F3 by assumption. rewrite !Hall; [reflexivity| |]; intros Heq; apply Hne; unfold v; symmetry; [apply (Nat.div_unique c 2 u 1)|apply (Nat.div_unique c 2 u 0)]; lia.
      + exists tree'. split; [reflexivity|assumption].
  Qed.
End Tree.

Section Supers.
  Variables (r : rsv) (l : list bool) (mins : list Z).
  Notation ws := (v_words (rs_bv r)).
  Notation f := (bitat ws).
  Hypothesis Hr : rs_ok r l.
  Hypothesis Hnear : forall q, q <= 64 * length ws -> near (E f q).
  Hypothesis Hlen : length mins = ceil_div (length ws) 4.
  Hypothesis Hsmall : (Z.of_nat (length l) <= 2147483647)%Z.
  Let bm (k : nat) : Z := (E f (256 * (32 * (k / 32))%nat) + nth k mins 0)%Z.
  Hypothesis Hmins : forall k, k < length mins -> is_min (E f) (256 * k) (Nat.min (256 * k + 256) (length l) + 1) (bm k).

  Lemma bm_bound k : k < length mins -> near (bm k) /\ (bm k <= Z.of_nat (length l))%Z.
  Proof.
    intros Hk. destruct (Hmins k Hk) as [(q & Hq & Eq) _]. pose proof (repr_fit _ _ (length l) (ro_repr _ _ Hr) (le_n _)). rewrite <- Eq. split; [apply Hnear; lia|].
    pose proof (E_bound f q). lia.
  Qed.
  Lemma super_min_ok s n : forall b acc, 32 * s <= b -> b + n <= 32 * s + 32 -> b + n <= length mins ->
    exists v, super_min mins (E f (256 * (32 * s))) n b acc = Ok v /\ (v <= acc)%Z /\ (forall q, b <= q < b + n -> (v <= bm q)%Z) /\ (v = acc \/ exists q, b <= q < b + n /\ bm q = v).
  Proof.
    induction n as [|n IH]; intros b acc H1 H2 H3.
    - exists acc. split; [reflexivity|]. split; [lia|]. split; [intros; lia|now left].
    - cbn [super_min]. rewrite (get_nth mins b 0%Z) by lia. cbn [bind].
      assert (Eb : (E f (256 * (32 * s)) + nth b mins 0 = bm b)%Z). { unfold bm. do 4 f_equal. apply (Nat.div_unique b 32 s (b - 32 * s)); lia. }
      rewrite Eb. destruct (bm_bound b) as [Hb _]; [lia|]. unfold near in Hb. rewrite i32_ok by lia. cbn [bind].
      destruct (IH (b + 1) (Z.min acc (bm b))) as (v & -> & V1 & V2 & V3); [lia..|]. exists v. split; [reflexivity|]. split; [lia|]. split.
      + intros q Hq. destruct (Nat.eq_dec q b) as [->|]; [lia|apply V2; lia].
      + destruct V3 as [->|(q & Hq & Eq)]; [|right; exists q; split; [lia|assumption]]. destruct (Z.min_spec acc (bm b)) as [[_ ->]|[_ ->]]; [now left|]. right. exists b. split; [lia|reflexivity].
  Qed.
  Lemma super_mins_ok n : forall s, s + n = ceil_div (length mins) 32 ->
    exists vs, super_mins r mins (length mins) n s = Ok vs /\ length vs = n /\
      forall i, i < n -> is_min bm (32 * (s + i)) (Nat.min (32 * (s + i) + 32) (length mins)) (nth i vs 0%Z).
  Proof.
    induction n as [|n IH]; intros s Hs.
    - exists []. split; [reflexivity|]. split; [reflexivity|]. intros; lia.
    - cbn [super_mins]. assert (Hsb : 32 * s < length mins).
      { unfold ceil_div in Hs. pose proof (Nat.div_mod (length mins + 32 - 1) 32). pose proof (Nat.mod_upper_bound (length mins + 32 - 1) 32). lia. }
      assert (Hsw : 4 * (s * 32) < length ws).
      { rewrite Hlen in Hsb. unfold ceil_div in Hsb. pose proof (Nat.div_mod (length ws + 4 - 1) 4). pose proof (Nat.mod_upper_bound (length ws + 4 - 1) 4). lia. }
      rewrite (block_excess_ok r l) by (try assumption; apply Hnear; lia). cbn [bind]. replace (256 * (s * 32)) with (256 * (32 * s)) by lia.
      rewrite (ro_size _ _ Hr). rewrite to_i32_id by lia.
      destruct (super_min_ok s (Nat.min ((s + 1) * 32) (length mins) - s * 32) (s * 32) (Z.of_nat (length l))) as (v & -> & V1 & V2 & V3); [lia..|]. cbn [bind].
      destruct (IH (s + 1)) as (vs & -> & Hl & Hvs); [lia|]. cbn [bind]. eexists. split; [reflexivity|]. split; [cbn; lia|]. intros [|i] Hi.
      + cbn [nth]. rewrite Nat.add_0_r. replace (Nat.min (32 * s + 32) (length mins)) with (s * 32 + (Nat.min ((s + 1) * 32) (length mins) - s * 32)) by lia.
        replace (32 * s) with (s * 32) by lia. split; [|exact V2]. destruct V3 as [E1|V3]; [|exact V3].
        exists (s * 32). split; [lia|]. specialize (V2 (s * 32)). destruct (bm_bound (s * 32)); [lia|]. lia.
      + cbn [nth]. replace (s + S i) with (s + 1 + i) by lia. apply Hvs. lia.
  Qed.
End Supers.

Lemma bp_build_ok ws l h h0 : repr ws l -> l <> [] -> (Z.of_nat (length l) <= 2147483647)%Z -> (forall q, q <= 64 * length ws -> near (E (bitat ws) q)) ->
  exists p, bp_build {| v_words := ws; v_size := length l |} h h0 = Ok p /\ rs_bv (bp_rs p) = {| v_words := ws; v_size := length l |} /\ bp_ok p l.
Proof.
  intros Hr Hne Hsmall Hnear. unfold bp_build. destruct (rs_build_ok ws l h h0 Hr) as (r & -> & Er & Hro). cbn [bind v_size v_words].
  assert (Hl0 : 0 < length l) by (destruct l; [congruence|cbn; lia]). destruct (Nat.eqb_spec (length l) 0); [lia|].
  assert (Hsz : length l <= 64 * length ws /\ 64 * length ws < length l + 64).
  { rewrite (repr_len _ _ Hr). unfold words_for. pose proof (Nat.div_mod (length l + 63) 64). pose proof (Nat.mod_upper_bound (length l + 63) 64). lia. }
  destruct (min_words_ok ws (length l) Hsz Hl0 ws [] 0 0%Z 0%Z []) as (mins & -> & Hml & Hmins); [reflexivity|reflexivity|intros ->; cbn in Hsz; lia|left; tauto|].
  rewrite <- Hml. change ((length mins + 32 - 1) / 32) with (ceil_div (length mins) 32). set (nsb := ceil_div (length mins) 32) in *.
  assert (Hws : v_words (rs_bv r) = ws) by (now rewrite Er).
  assert (Hnsb : 1 <= nsb).
  { unfold nsb. rewrite Hml. unfold ceil_div. apply Nat.div_le_lower_bound; [lia|]. assert (1 <= (length ws + 4 - 1) / 4); [|lia]. apply Nat.div_le_lower_bound; lia. }
  destruct (leaves_ok nsb) as (H & -> & HH). cbn [bind].
  destruct (super_mins_ok r l mins) with (n := nsb) (s := 0) as (vs & -> & Hvl & Hvs); try (rewrite Hws); try assumption; try reflexivity. cbn [bind]. rewrite Hws in Hvs.
  rewrite to_i32_id by lia. pose proof (pow_pos H).
  destruct (fill_up_ok (2 ^ H + nsb) (2 ^ H) (Z.of_nat (length l)) (fun s => nth s vs 0%Z) ltac:(lia) (2 ^ H + nsb - 2) (repeat (Z.of_nat (length l)) (2 ^ H) ++ vs)) as (tree & -> & F1 & F2 & F3).
  - lia.
  - split; [rewrite app_length, repeat_length; lia|]. split.
    + intros s Hs. rewrite app_nth2, repeat_length by (rewrite repeat_length; lia). f_equal. lia.
    + intros v Hv. rewrite app_nth1, nth_repeat_if by (rewrite ?repeat_length; lia). destruct (Nat.ltb_spec v (2 ^ H)); [|lia]. unfold kid.
      destruct (Nat.ltb_spec (2 ^ H + nsb - 2 + 1) (2 * v)), (Nat.ltb_spec (2 * v) (2 ^ H + nsb)), (Nat.ltb_spec (2 ^ H + nsb - 2 + 1) (2 * v + 1)), (Nat.ltb_spec (2 * v + 1) (2 ^ H + nsb)); cbn [andb]; lia.
  - cbn [bind]. eexists. split; [reflexivity|]. cbn [bp_rs]. split; [assumption|].
    split; cbn [bp_rs bp_internal bp_block_min bp_tree]; rewrite ?Hws; try assumption.
    2:{ intros v Hv. rewrite F3 by assumption. unfold kid. rewrite F1. destruct (Nat.ltb_spec 1 (2 * v)); [|lia]. destruct (Nat.ltb_spec 1 (2 * v + 1)); [|lia]. reflexivity. }
    exists H, nsb, (fun s => nth s vs 0%Z). split; [reflexivity|]. split.
    + split; [assumption|reflexivity|assumption|intros s Hs; apply F2; lia|]. intros v Hv Hv2.
      assert (Hle : forall j, 1 <= j < 2 ^ H + nsb -> (nth j tree 0 <= Z.of_nat (length l))%Z).
      { intros j Hj. destruct (Nat.lt_ge_cases j (2 ^ H)); [rewrite F3 by lia; lia|]. replace j with (2 ^ H + (j - 2 ^ H)) by lia. rewrite F2 by lia.
        destruct (Hvs (j - 2 ^ H)) as [(q & Hq & <-) _]; [lia|]. destruct (Hmins q) as [(x & Hx & <-) _]; [lia|]. pose proof (E_bound (bitat ws) x). lia. }
      rewrite F3 by assumption. unfold kid. destruct (Nat.ltb_spec 1 (2 * v)); [|lia]. destruct (Nat.ltb_spec 1 (2 * v + 1)); [|lia].
      destruct (Nat.ltb_spec (2 * v) (2 ^ H + nsb)); [|lia]. destruct (Nat.ltb_spec (2 * v + 1) (2 ^ H + nsb)); [|lia]. cbn [andb].
      specialize (Hle (2 * v)). lia.
    + intros s Hs. apply (Hvs s Hs).
Qed.
