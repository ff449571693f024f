(** Scanning words and blocks of words for the minimal excess. *)
From Coq Require Import ZArith.
From Verif Require Import Base M_Word M_Bits M_Darray M_Rs M_Bp P_Word P_Bits P_Rank P_Scan.
Local Open Scope nat_scope.

(** Excesses from which 64 more steps stay within int32_t. *)
Definition near (z : Z) : Prop := (-2147483583 <= z <= 2147483583)%Z.
Lemma i32_ok z : (-2147483648 <= z <= 2147483647)%Z -> i32 z = Ok z.
Proof. intros H. unfold i32. destruct (Z.leb_spec (-2147483648) z), (Z.leb_spec z 2147483647); try lia. reflexivity. Qed.
Lemma to_i32_id z : (-2147483648 <= z <= 2147483647)%Z -> to_i32 z = z.
Proof. intros H. unfold to_i32. rewrite Z.mod_small by lia. lia. Qed.

Definition byte_check (c : N) : bool :=
  let e := map (fun j => E (tb c) j) (seq 0 9) in
  let i := fwd_min_idx c in
  (fwd_exc c =? nth 8 e 0)%Z && (i <=? 8) && (- fwd_min c =? nth i e 0)%Z && (0 <=? fwd_min c)%Z && (fwd_min c <=? 8)%Z &&
  forallb (fun j => (- fwd_min c <=? nth j e 0)%Z) (seq 0 9) && forallb (fun j => (- fwd_min c <? nth j e 0)%Z) (seq 0 i).
Lemma bytes_checked : forallb (fun c => byte_check (N.of_nat c)) (seq 0 256) = true.
Proof. vm_compute. reflexivity. Qed.
Lemma nth_map_seq {A} (f : nat -> A) n d i : i < n -> nth i (map f (seq 0 n)) d = f i.
Proof. intros H. rewrite (nth_indep _ d (f 0)) by (rewrite map_length, seq_length; exact H). rewrite map_nth, seq_nth by assumption. reflexivity. Qed.
Lemma byte_ok c : (c < 256)%N ->
  fwd_exc c = E (tb c) 8 /\ (0 <= fwd_min c <= 8)%Z /\
  (fwd_min_idx c <= 8 /\ E (tb c) (fwd_min_idx c) = (- fwd_min c)%Z) /\
  (forall j, j <= 8 -> (- fwd_min c <= E (tb c) j)%Z) /\ (forall j, j < fwd_min_idx c -> (- fwd_min c < E (tb c) j)%Z).
Proof.
  intros H. pose proof bytes_checked as Hall. rewrite forallb_forall in Hall. specialize (Hall (N.to_nat c)). rewrite N2Nat.id in Hall.
  assert (Hin : In (N.to_nat c) (seq 0 256)) by (apply in_seq; lia). apply Hall in Hin. clear Hall. unfold byte_check in Hin. cbv zeta in Hin.
  set (e := map _ _) in Hin. assert (He : forall j, j <= 8 -> nth j e 0%Z = E (tb c) j) by (intros j Hj; unfold e; apply (nth_map_seq (fun j => E (tb c) j)); lia).
  clearbody e. rewrite !andb_true_iff, !forallb_forall in Hin. destruct Hin as ((((((H1 & H2) & H3) & H4) & H5) & H6) & H7).
  apply Z.eqb_eq in H1, H3. apply Nat.leb_le in H2. apply Z.leb_le in H4, H5. rewrite He in H1, H3 by lia.
  split; [assumption|]. split; [lia|]. split; [split; [assumption|congruence]|]. split.
  - intros j Hj. rewrite <- He by assumption. apply Z.leb_le, H6, in_seq. lia.
  - intros j Hj. rewrite <- He by lia. apply Z.ltb_lt, H7, in_seq. lia.
Qed.
Lemma byte_at_ok w i : i < 8 -> exists c, byte_at w (i * 8) = Ok c /\ (c < 256)%N /\ forall j, j < 8 -> tb c j = tb w (8 * i + j).
Proof.
  intros H. unfold byte_at. rewrite shr_ok by lia. cbn [bind]. eexists. split; [reflexivity|]. split.
  - change 255%N with (N.ones 8). rewrite N.land_ones. apply N.mod_lt. lia.
  - intros j Hj. unfold tb. change 255%N with (N.ones 8). rewrite N.land_spec, N.ones_spec_low, andb_true_r, N.shiftr_spec' by lia. f_equal. lia.
Qed.

Section Word.
  Variables (w : N) (x : Z).
  Let g (j : nat) : Z := (x + E (tb w) j)%Z.
  Lemma rmq_bytes_ok n i b mn mb bi k : n + i = 8 -> near x -> i * 8 <= b <= i * 8 + 1 -> scan g 0 b mn mb k -> (k = None \/ exists c, bi < i /\ byte_at w (bi * 8) = Ok c /\ k = Some (bi * 8 + fwd_min_idx c)) ->
    exists mb' bi' k', rmq_bytes w n i (g (i * 8)) mb bi = Ok (g 64, mb', bi') /\ (n = 0 /\ mb' = mb /\ bi' = bi /\ k' = k \/ scan g 0 65 mn mb' k') /\
      (k' = None \/ exists c, bi' < 8 /\ byte_at w (bi' * 8) = Ok c /\ k' = Some (bi' * 8 + fwd_min_idx c)).
  Proof.
    intros Hn Hx. revert i b mb bi k Hn. induction n as [|n IH]; intros i b mb bi k Hn Hb Hs Hk.
    - exists mb, bi, k. replace i with 8 in * by lia. split; [reflexivity|]. split; [now left|assumption].
    - cbn [rmq_bytes]. destruct (byte_at_ok w i) as (c & Hc & Hlt & Hbits); [lia|]. rewrite Hc. cbn [bind].
      destruct (byte_ok c Hlt) as (B1 & B2 & (B3 & B4) & B5 & B6).
      assert (Hg : forall j, j <= 8 -> g (i * 8 + j) = (g (i * 8) + E (tb c) j)%Z).
      { intros j Hj. unfold g. rewrite E_add. rewrite (E_ext (fun x0 => tb w (i * 8 + x0)) (tb c)); [lia|]. intros q Hq. rewrite Hbits by lia. f_equal. lia. }
      assert (Hgb : forall j, j <= 64 -> (x - 64 <= g j <= x + 64)%Z). { intros j Hj. unfold g. pose proof (E_bound (tb w) j). lia. }
      unfold near in Hx. rewrite i32_ok.
      2:{ pose proof (Hg _ B3) as Hq. rewrite B4 in Hq. specialize (Hgb (i * 8 + fwd_min_idx c)). lia. }
      cbn [bind]. rewrite i32_ok. 2:{ pose proof (Hg 8 (le_n _)) as Hq. specialize (Hgb (i * 8 + 8)). lia. }
      cbn [bind]. set (cur := (g (i * 8) - fwd_min c)%Z).
      assert (Hstep : scan g (i * 8) ((i + 1) * 8 + 1) mb (if (cur <? mb)%Z then cur else mb) (if (cur <? mb)%Z then Some (i * 8 + fwd_min_idx c) else None)).
      { destruct (Z.ltb_spec cur mb) as [Hl|Hl]; cbn.
        - split; [assumption|]. split; [lia|]. split; [rewrite Hg, B4 by lia; unfold cur; lia|]. split; intros q Hq; replace q with (i * 8 + (q - i * 8)) by lia; rewrite Hg by lia; unfold cur.
          + specialize (B5 (q - i * 8)). lia.
          + specialize (B6 (q - i * 8)). lia.
        - split; [reflexivity|]. intros q Hq. replace q with (i * 8 + (q - i * 8)) by lia; rewrite Hg by lia; unfold cur in Hl. specialize (B5 (q - i * 8)). lia. }
      assert (Hb' : 0 <= i * 8 <= b) by lia. assert (Hbc : b <= (i + 1) * 8 + 1) by lia.
      pose proof (scan_app _ _ _ _ _ _ _ _ _ _ Hb' Hbc Hs Hstep) as Hs'.
      replace (g (i * 8) + fwd_exc c)%Z with (g ((i + 1) * 8)) by (replace ((i + 1) * 8) with (i * 8 + 8) by lia; rewrite Hg, B1 by lia; lia).
      destruct (IH (i + 1) ((i + 1) * 8 + 1) _ (if (cur <? mb)%Z then i else bi) _ ltac:(lia) ltac:(lia) Hs') as (mb' & bi' & k' & -> & H1 & H2).
      { destruct (Z.ltb_spec cur mb); cbn [opt_or].
        - right. exists c. split; [lia|]. split; [assumption|reflexivity].
        - destruct Hk as [->|(c' & Hc' & Hk)]; [now left|]. right. exists c'. split; [lia|assumption]. }
      exists mb', bi', k'. split; [reflexivity|]. split; [|assumption]. right. destruct H1 as [(-> & -> & -> & ->)|H1]; [|assumption].
      replace ((i + 1) * 8 + 1) with 65 in Hs' by lia. assumption.
  Qed.
  Lemma rmq_word_ok start mn idx : near x ->
    exists mn' k, rmq_word w x start mn idx = Ok (g 64, mn', idx_upd (option_map (fun j => start + j) k) idx) /\ scan g 0 65 mn mn' k.
  Proof.
    intros Hx. unfold rmq_word. destruct (rmq_bytes_ok 8 0 0 mn mn 0 None eq_refl Hx ltac:(lia) (scan_empty _ _ _ _ (le_n _)) (or_introl eq_refl)) as (mb & bi & k & E1 & Hs & Hk).
    replace (g (0 * 8)) with x in E1 by (unfold g; cbn; lia). rewrite E1. cbn [bind].
    destruct Hs as [(H & _)|Hs]; [discriminate|]. destruct k as [p|].
    - destruct Hs as (S1 & S2). destruct (Z.ltb_spec mb mn); [|lia]. destruct Hk as [Hk|(c & Hc & Ec & Hk)]; [discriminate|]. rewrite Ec. cbn [bind].
      exists mb, (Some p). injection Hk as ->. split; [|cbn; tauto]. cbn [option_map idx_upd]. do 2 f_equal. lia.
    - destruct Hs as (-> & S2). rewrite Z.ltb_irrefl. exists mn, None. split; [reflexivity|]. now split.
  Qed.
End Word.

(** Whole words of a bit vector. *)
Section Words.
  Variable ws : list N.
  Notation f := (bitat ws).
  Hypothesis Hnear : forall p, p <= 64 * length ws -> near (E f p).
  Lemma rmq_words_ok n start mn idx : start + n <= length ws ->
    exists mn' k, rmq_words ws n start (E f (64 * start)) mn idx = Ok (E f (64 * (start + n)), mn', idx_upd k idx) /\
      scan (E f) (64 * start) (if n =? 0 then 64 * start else 64 * (start + n) + 1) mn mn' k.
  Proof.
    revert start mn idx. induction n as [|n IH]; intros start mn idx H.
    - cbn [rmq_words Nat.eqb]. exists mn, None. rewrite (Nat.add_0_r start). split; [reflexivity|]. now apply scan_empty.
    - cbn [rmq_words Nat.eqb]. rewrite (get_nth ws start 0%N) by lia. cbn [bind].
      set (w := nth start ws 0%N). assert (Hw : forall j, j <= 64 -> E f (64 * start + j) = (E f (64 * start) + E (tb w) j)%Z).
      { intros j Hj. rewrite E_add. f_equal. apply E_ext. intros q Hq. unfold w. now rewrite bitat_eq by lia. }
      destruct (rmq_word_ok w (E f (64 * start)) (start * 64) mn idx) as (m1 & k1 & -> & Hs); [apply Hnear; lia|]. cbn [bind].
      rewrite <- Hw by lia. replace (64 * start + 64) with (64 * (start + 1)) by lia.
      destruct (IH (start + 1) m1 (idx_upd (option_map (fun j => start * 64 + j) k1) idx)) as (m2 & k2 & -> & Hs2); [lia|].
      replace (start + 1 + n) with (start + S n) in * by lia. eexists m2, _. rewrite <- idx_upd_or. split; [reflexivity|].
      assert (Hs1 : scan (E f) (64 * start) (64 * start + 65) mn m1 (option_map (fun j => start * 64 + j) k1)).
      { replace (start * 64) with (64 * start) by lia. apply scan_shift. apply (scan_ext (fun j => (E f (64 * start) + E (tb w) j)%Z)); [|assumption]. intros q Hq. now rewrite Hw by lia. }
      destruct (Nat.eqb_spec n 0) as [Hn0|].
      + rewrite Hn0 in *. destruct k2 as [p|]; [destruct Hs2 as (_ & Hs2 & _); lia|]. destruct Hs2 as [-> _]. cbn [opt_or]. replace (64 * (start + 1) + 1) with (64 * start + 65) by lia. assumption.
      + assert (Ha : 64 * start <= 64 * (start + 1) <= 64 * start + 65) by lia. assert (Hb : 64 * start + 65 <= 64 * (start + S n) + 1) by lia. exact (scan_app _ _ _ _ _ _ _ _ _ _ Ha Hb Hs1 Hs2).
  Qed.

  (** A word cut after some bits: padding with ones adds no new minimum. *)
  Lemma rmq_padded w w' start a len mn idx : a + len <= 64 * length ws -> 0 < len <= 64 -> (forall j, j < len -> tb w j = f (a + j)) -> start = a ->
    (if len =? 64 then Ok w else pad_ones w len) = Ok w' ->
    exists mn' k, rmq_word w' (E f a) start mn idx = Ok ((E f (a + len) + (64 - Z.of_nat len))%Z, mn', idx_upd k idx) /\ scan (E f) a (a + len + 1) mn mn' k.
  Proof.
    intros Ha Hlen Hb -> Hw'. assert (Hb' : forall j, j < 64 -> tb w' j = if j <? len then f (a + j) else true).
    { intros j Hj. destruct (Nat.eqb_spec len 64) as [->|Hne].
      - injection Hw' as <-. destruct (Nat.ltb_spec j 64); [now apply Hb|lia].
      - unfold pad_ones in Hw'. rewrite shl_ok in Hw' by lia. cbn [bind] in Hw'. assert (Ew : w' = N.lor w (wrap (N.shiftl ALL (N.of_nat len)))) by congruence. rewrite Ew. unfold tb. rewrite N.lor_spec.
        change (N.testbit w (N.of_nat j)) with (tb w j). unfold wrap. change W64 with (2 ^ 64)%N. rewrite N.mod_pow2_bits_low by lia.
        destruct (Nat.ltb_spec j len).
        + rewrite N.shiftl_spec_low by lia. rewrite orb_false_r. now apply Hb.
        + rewrite N.shiftl_spec_high by lia. change ALL with (N.ones 64). rewrite N.ones_spec_low by lia. apply orb_true_r. }
    assert (Hg : forall j, j <= len -> (E f a + E (tb w') j)%Z = E f (a + j)).
    { intros j Hj. rewrite E_add. f_equal. apply E_ext. intros q Hq. rewrite Hb' by lia. destruct (Nat.ltb_spec q len); [reflexivity|lia]. }
    assert (Hg' : forall j, j <= 64 - len -> E (tb w') (len + j) = (E (tb w') len + Z.of_nat j)%Z).
    { intros j Hj. apply E_ones. intros q Hq. rewrite Hb' by lia. destruct (Nat.ltb_spec q len); [lia|reflexivity]. }
    destruct (rmq_word_ok w' (E f a) a mn idx) as (m1 & k1 & -> & Hs); [apply Hnear; lia|]. exists m1, (option_map (fun j => a + j) k1).
    specialize (Hg len (le_n _)) as Hlast. pose proof (Hg' (64 - len) (le_n _)) as H64. replace (len + (64 - len)) with 64 in H64 by lia.
    split; [do 3 f_equal; lia|]. replace (a + len + 1) with (a + (len + 1)) by lia. apply scan_shift.
    apply (scan_ext (fun j => (E f a + E (tb w') j)%Z)); [intros q Hq; apply Hg; lia|].
    apply (scan_cut _ _ (len + 1) 65); [lia| |assumption]. intros q Hq. replace (len + 1 - 1) with len by lia. replace q with (len + (q - len)) by lia.
    rewrite Hg' by lia. lia.
  Qed.
End Words.
