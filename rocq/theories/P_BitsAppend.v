(** bit_vector_builder::append. *)
From Verif Require Import Base M_Word S_Bits P_Word M_Bits P_Bits P_Rank P_BitsRead P_BitsIter P_BitsHist.
Local Open Scope nat_scope.

Lemma Forall_firstn {A} (P : A -> Prop) n l : Forall P l -> Forall P (firstn n l).
Proof. intros H. rewrite <- (firstn_skipn n l) in H. now apply Forall_app in H. Qed.
Lemma Forall_skipn {A} (P : A -> Prop) n l : Forall P l -> Forall P (skipn n l).
Proof. intros H. rewrite <- (firstn_skipn n l) in H. now apply Forall_app in H. Qed.
Lemma bitat_upd ws j w i : j < length ws -> bitat (upd ws j w) i = if i / 64 =? j then tb w (i mod 64) else bitat ws i.
Proof.
  intros Hj. unfold bitat. destruct (Nat.eqb_spec (i / 64) j) as [E|E].
  - rewrite E, upd_nth, Nat.eqb_refl. destruct (Nat.ltb_spec j (length ws)); [reflexivity|lia].
  - rewrite upd_nth. destruct (Nat.eqb_spec j (i / 64)); [congruence|reflexivity].
Qed.

(** One step: the word [r] lands at the bits from 64 * cur + s on. *)
Lemma append_word_ok ws cur s r : words ws -> (r < W64)%N -> 1 <= s < 64 -> cur + 1 < length ws ->
  (forall c, s <= c -> tb (nth cur ws 0%N) c = false) ->
  exists ws', (do w <- get ws cur; do x <- shl r s; do ws <- set ws cur (N.lor w x); do h <- shr r (64 - s); set ws (cur + 1) h) = Ok ws' /\
    words ws' /\ length ws' = length ws /\
    forall i, bitat ws' i = if (64 * cur + s <=? i) && (i <? 64 * (cur + 2)) then tb r (i - (64 * cur + s)) else bitat ws i.
Proof.
  intros Hw Hr Hs Hc Hz. rewrite (get_nth _ _ 0%N) by lia. cbn [bind]. rewrite shl_ok by lia. cbn [bind].
  rewrite set_ok by lia. cbn [bind]. rewrite shr_ok by lia. cbn [bind]. rewrite set_ok by (rewrite upd_length; lia).
  eexists; split; [reflexivity|]. pose proof (nth_word ws cur Hw) as Hn.
  assert (W1 : (N.lor (nth cur ws 0) (wrap (N.shiftl r (N.of_nat s))) < W64)%N).
  { apply word_iff. intros i Hi. rewrite tb_lor, tb_wrap. rewrite (tb_high _ _ Hn) by assumption. destruct (Nat.ltb_spec i 64); [lia|reflexivity]. }
  assert (W2 : (N.shiftr r (N.of_nat (64 - s)) < W64)%N).
  { apply word_iff. intros i Hi. rewrite tb_shiftr. apply (tb_high _ _ Hr). lia. }
  split; [now apply words_upd; [apply words_upd|]|]. split; [now rewrite !upd_length|].
  intros i. rewrite bitat_upd by (rewrite upd_length; lia). rewrite bitat_upd by lia.
  destruct (dm64 i) as (a & b & Hb & ->). rewrite div64, mod64, bitat_eq by assumption.
  destruct (Nat.eqb_spec a (cur + 1)) as [->|Ha1].
  - rewrite tb_shiftr. destruct (Nat.leb_spec (64 * cur + s) (64 * (cur + 1) + b)), (Nat.ltb_spec (64 * (cur + 1) + b) (64 * (cur + 2))); try lia. cbn [andb]. f_equal. lia.
  - destruct (Nat.eqb_spec a cur) as [->|Ha].
    + rewrite tb_lor, tb_wrap, tb_shiftl. destruct (Nat.ltb_spec b 64); [|lia].
      destruct (Nat.leb_spec (64 * cur + s) (64 * cur + b)), (Nat.ltb_spec (64 * cur + b) (64 * (cur + 2))); try lia; cbn [andb].
      * rewrite (Hz b) by lia. destruct (Nat.leb_spec s b); [|lia]. cbn [orb andb]. f_equal. lia.
      * destruct (Nat.leb_spec s b); [lia|]. cbn [andb]. now rewrite orb_false_r.
    + destruct (Nat.leb_spec (64 * cur + s) (64 * a + b)), (Nat.ltb_spec (64 * a + b) (64 * (cur + 2))); try reflexivity. lia.
Qed.

Lemma append_words_ok s : forall rs ws cur, words ws -> words rs -> 1 <= s < 64 -> cur + length rs < length ws ->
  (forall c, s <= c -> tb (nth cur ws 0%N) c = false) ->
  exists ws', append_words ws cur s rs = Ok (ws', cur + length rs) /\ words ws' /\ length ws' = length ws /\
    forall i, bitat ws' i = if (64 * cur + s <=? i) && (i <? 64 * (cur + length rs + 1)) then bitat rs (i - (64 * cur + s)) else bitat ws i.
Proof.
  induction rs as [|r rs IH]; intros ws cur Hw Hrs Hs Hc Hz.
  - exists ws. cbn [append_words length] in *. rewrite Nat.add_0_r. split; [reflexivity|]. split; [assumption|]. split; [reflexivity|].
    intros i. destruct (Nat.leb_spec (64 * cur + s) i), (Nat.ltb_spec i (64 * (cur + 1))); try reflexivity. cbn [andb].
    rewrite (bitat_high [] _) by (cbn; lia). destruct (dm64 i) as (a & b & Hb & ->). rewrite bitat_eq by assumption.
    replace a with cur by lia. apply Hz. lia.
  - inversion Hrs as [|? ? Hr Hrs']; subst. cbn [length] in Hc.
    destruct (append_word_ok ws cur s r) as (ws1 & E1 & Hw1 & Hl1 & Hb1); try assumption; try lia.
    assert (Z1 : forall c, s <= c -> tb (nth (cur + 1) ws1 0%N) c = false).
    { intros c Hcs. destruct (Nat.lt_ge_cases c 64) as [Hc64|Hc64]; [|apply (tb_high _ _ (nth_word ws1 _ Hw1)); assumption].
      rewrite <- (bitat_eq ws1 (cur + 1) c) by assumption. rewrite Hb1.
      destruct (Nat.leb_spec (64 * cur + s) (64 * (cur + 1) + c)), (Nat.ltb_spec (64 * (cur + 1) + c) (64 * (cur + 2))); try lia. cbn [andb].
      apply (tb_high _ _ Hr). lia. }
    destruct (IH ws1 (cur + 1)) as (ws2 & E2 & Hw2 & Hl2 & Hb2); try assumption; try lia.
    exists ws2. cbn [append_words length]. split.
    { rewrite (get_nth _ _ 0%N) in E1 |- * by lia. cbn [bind] in *. destruct (shl r s); try discriminate. cbn [bind] in *.
      destruct (set ws cur _); try discriminate. cbn [bind] in *. destruct (shr r (64 - s)); try discriminate. cbn [bind] in *. rewrite E1. cbn [bind].
      rewrite E2. do 2 f_equal. lia. }
    split; [assumption|]. split; [lia|]. intros i. rewrite Hb2, Hb1.
    destruct (Nat.leb_spec (64 * (cur + 1) + s) i) as [H1|H1].
    + destruct (Nat.ltb_spec i (64 * (cur + 1 + length rs + 1))) as [H2|H2]; cbn [andb].
      * destruct (Nat.leb_spec (64 * cur + s) i), (Nat.ltb_spec i (64 * (cur + S (length rs) + 1))); try lia. cbn [andb].
        destruct (dm64 (i - (64 * (cur + 1) + s))) as (a & b & Hb & E). rewrite E. replace (i - (64 * cur + s)) with (64 * (S a) + b) by lia.
        rewrite !bitat_eq by assumption. reflexivity.
      * destruct (Nat.ltb_spec i (64 * (cur + 2))), (Nat.ltb_spec i (64 * (cur + S (length rs) + 1))); try lia. rewrite !andb_false_r. reflexivity.
    + cbn [andb]. destruct (Nat.leb_spec (64 * cur + s) i) as [H3|H3]; cbn [andb]; [|reflexivity].
      destruct (Nat.ltb_spec i (64 * (cur + 2))), (Nat.ltb_spec i (64 * (cur + S (length rs) + 1))); try lia.
      destruct (dm64 (i - (64 * cur + s))) as (a & b & Hb & E). rewrite E. rewrite bitat_eq by assumption. assert (a = 0) by lia. subst a. cbn [nth]. reflexivity.
Qed.

Lemma bitat_app_if ws vs i : bitat (ws ++ vs) i = if i <? 64 * length ws then bitat ws i else bitat vs (i - 64 * length ws).
Proof.
  destruct (dm64 i) as (a & b & Hb & ->). rewrite bitat_eq, nth_app_if by assumption.
  destruct (Nat.ltb_spec a (length ws)), (Nat.ltb_spec (64 * a + b) (64 * length ws)); try lia.
  - now rewrite bitat_eq.
  - replace (64 * a + b - 64 * length ws) with (64 * (a - length ws) + b) by lia. now rewrite bitat_eq.
Qed.
Lemma bitat_repeat0 n i : bitat (repeat 0%N n) i = false.
Proof. unfold bitat. rewrite nth_repeat_if. destruct (i / 64 <? n); apply tb_of. Qed.

Lemma append_ok b r l m : bvb_ok b l -> bvb_ok r m -> exists b', bvb_append b r = Ok b' /\ bvb_ok b' (l ++ m).
Proof.
  intros Hb Hr. destruct (ok_lengths b l Hb) as (q & p & Hp & El & Es & Ew & Hc).
  pose proof (bo_repr _ _ Hb) as Rb. pose proof (bo_repr _ _ Hr) as Rr. pose proof (bo_size _ _ Hr) as Sr. pose proof (repr_len _ _ Rr) as Lr.
  unfold bvb_append. rewrite Sr. destruct (Nat.eqb_spec (length m) 0) as [Em|Em].
  { exists b. split; [reflexivity|]. destruct m; [|discriminate]. now rewrite app_nil_r. }
  rewrite Es, mod64 by assumption.
  pose proof (words_for_bound (length m)) as Bm. pose proof (words_for_bound (64 * q + p + length m)) as Bt.
  set (T := words_for (64 * q + p + length m)) in *. set (R := b_words r) in *. set (B := b_words b) in *.
  assert (LB : length B <= T) by (rewrite Ew; destruct (p =? 0) eqn:E; [apply Nat.eqb_eq in E|apply Nat.eqb_neq in E]; lia).
  assert (ER : resize_words B T = B ++ repeat 0%N (T - length B)) by (unfold resize_words; now rewrite firstn_all2).
  rewrite ER. set (W := B ++ repeat 0%N (T - length B)).
  assert (LW : length W = T) by (unfold W; rewrite app_length, repeat_length; lia).
  assert (WW : words W) by (apply words_app; [apply Rb|now apply words_repeat]).
  assert (BW : forall i, bitat W i = nth i l false).
  { intros i. unfold W. rewrite bitat_app_if, bitat_repeat0. destruct (Nat.ltb_spec i (64 * length B)); [apply Rb|].
    symmetry. apply nth_overflow. pose proof (repr_len _ _ Rb) as L. pose proof (words_for_bound (length l)). fold B in L. lia. }
  assert (Main : forall ws, words ws -> length ws = T -> (forall i, bitat ws i = if length l <=? i then nth (i - length l) m false else bitat W i) ->
    bvb_ok {| b_words := ws; b_size := 64 * q + p + length m; b_cur := back_ptr ws |} (l ++ m)).
  { intros ws Hw HL Hi. split; cbn [b_words b_size b_cur].
    - split; [assumption|rewrite app_length, El; exact HL|]. intros i. rewrite Hi, BW, nth_app_if.
      destruct (Nat.leb_spec (length l) i), (Nat.ltb_spec i (length l)); try reflexivity; lia.
    - rewrite app_length. lia.
    - intros _. apply back_ptr_some. intros ->. cbn [length] in HL. lia. }
  destruct (Nat.eqb_spec p 0) as [->|Hp0].
  - (* aligned *)
    assert (HRT : length B + length R = T).
    { rewrite Ew, Lr. unfold T. destruct (dm64 (length m)) as (a & c & Hc' & E). rewrite E. replace (64 * q + 0 + (64 * a + c)) with (64 * (q + a) + c) by lia.
      rewrite !words_for_eq by assumption. destruct (c =? 0); lia. }
    rewrite blit_ok by lia. cbn [bind]. eexists; split; [reflexivity|]. apply Main.
    + apply words_app; [now apply Forall_firstn|]. apply words_app; [apply Rr|now apply Forall_skipn].
    + rewrite !app_length, firstn_length, skipn_length. lia.
    + intros i. replace (firstn (length B) W) with B by (unfold W; now rewrite firstn_app, firstn_all, Nat.sub_diag, firstn_O, app_nil_r).
      rewrite skipn_all2 by lia. rewrite app_nil_r, bitat_app_if. rewrite Ew. cbn [Nat.eqb]. rewrite El, Nat.add_0_r.
      destruct (Nat.ltb_spec i (64 * q)), (Nat.leb_spec (64 * q) i); try lia.
      * rewrite BW. now rewrite (repr_bits _ _ Rb).
      * apply Rr.
  - (* in the middle of a word *)
    destruct (Nat.eqb_spec p 0) as [?|_] in Ew; [contradiction|]. rewrite Ew. replace (q + 1 - 1) with q by lia.
    assert (HR : length R <> 0) by lia. set (n := length R) in *.
    assert (HZ : forall c, p <= c -> tb (nth q W 0%N) c = false).
    { intros c Hc'. destruct (Nat.lt_ge_cases c 64) as [H|H]; [|apply (tb_high _ _ (nth_word W q WW)); assumption].
      rewrite <- bitat_eq by assumption. rewrite BW. apply nth_overflow. lia. }
    assert (HRE : R = firstn (n - 1) R ++ [nth (n - 1) R 0%N]).
    { rewrite <- (firstn_skipn (n - 1) R) at 1. f_equal. apply nth_ext with (d := 0%N) (d' := 0%N).
      - rewrite skipn_length. cbn [length]. unfold n. lia.
      - intros j Hj. rewrite skipn_length in Hj. assert (j = 0) by (unfold n in Hj; lia). subst j. rewrite nth_skipn'. cbn [nth]. f_equal. lia. }
    assert (HL1 : length (firstn (n - 1) R) = n - 1) by (rewrite firstn_length; unfold n; lia).
    assert (HT : q + n <= T) by lia.
    destruct (append_words_ok p (firstn (n - 1) R) W q) as (W1 & E1 & Hw1 & Hl1 & Hb1); [assumption|apply Forall_firstn, Rr|lia|lia|assumption|].
    rewrite E1. cbn [bind]. rewrite HL1 in *. rewrite (get_nth R (n - 1) 0%N) by (unfold n; lia). cbn [bind].
    set (z := nth (n - 1) R 0%N) in *. assert (Hz : (z < W64)%N) by (apply nth_word, Rr).
    assert (HZ1 : forall c, p <= c -> tb (nth (q + (n - 1)) W1 0%N) c = false).
    { intros c Hc'. destruct (Nat.lt_ge_cases c 64) as [H|H]; [|apply (tb_high _ _ (nth_word W1 _ Hw1)); assumption].
      rewrite <- bitat_eq by assumption. rewrite Hb1.
      destruct (Nat.leb_spec (64 * q + p) (64 * (q + (n - 1)) + c)), (Nat.ltb_spec (64 * (q + (n - 1)) + c) (64 * (q + (n - 1) + 1))); try lia. cbn [andb].
      apply bitat_high. lia. }
    assert (Comb : forall i, length l <= i -> i - length l < 64 * (n - 1) -> bitat (firstn (n - 1) R) (i - (64 * q + p)) = nth (i - length l) m false).
    { intros i H1 H2. rewrite El in *. rewrite <- (repr_bits _ _ Rr). fold R. rewrite (f_equal (fun x => bitat x (i - (64 * q + p))) HRE). cbv beta. rewrite bitat_app_if. rewrite HL1.
      destruct (Nat.ltb_spec (i - (64 * q + p)) (64 * (n - 1))); [reflexivity|lia]. }
    assert (Comb2 : forall i, length l + 64 * (n - 1) <= i -> tb z (i - (64 * q + p) - 64 * (n - 1)) = nth (i - length l) m false).
    { intros i H1. rewrite El in *. rewrite <- (repr_bits _ _ Rr). fold R. rewrite (f_equal (fun x => bitat x (i - (64 * q + p))) HRE). cbv beta. rewrite bitat_app_if. rewrite HL1.
      destruct (Nat.ltb_spec (i - (64 * q + p)) (64 * (n - 1))); [lia|]. set (j := i - (64 * q + p) - 64 * (n - 1)).
      destruct (dm64 j) as (a & c & Hc' & E). rewrite E, bitat_eq by assumption. destruct a as [|a]; [cbn [nth]; reflexivity|].
      rewrite nth_overflow by (cbn; lia). rewrite tb_of. apply (tb_high _ _ Hz). lia. }
    destruct (Nat.ltb_spec (q + (n - 1)) (T - 1)) as [HT1|HT1].
    + destruct (append_word_ok W1 (q + (n - 1)) p z) as (W2 & E2 & Hw2 & Hl2 & Hb2); [assumption|assumption|lia|lia|assumption|].
      rewrite (get_nth _ _ 0%N) in E2 |- * by lia. cbn [bind] in *. destruct (shl z p); try discriminate. cbn [bind] in *.
      destruct (set W1 _ _) as [W1'| | |] eqn:ES; try discriminate. cbn [bind] in *.
      assert (HLW : length W1' = T).
      { rewrite set_ok in ES by lia. injection ES as <-. rewrite upd_length. lia. }
      rewrite HLW. destruct (Nat.ltb_spec (q + (n - 1)) (T - 1)); [|lia]. destruct (shr z (64 - p)); try discriminate. cbn [bind] in *.
      rewrite E2. cbn [bind]. eexists; split; [reflexivity|]. apply Main; [assumption|lia|].
      intros i. rewrite Hb2, Hb1.
      destruct (Nat.leb_spec (64 * (q + (n - 1)) + p) i) as [H1|H1].
      * destruct (Nat.leb_spec (length l) i); [|lia]. destruct (Nat.ltb_spec i (64 * (q + (n - 1) + 2))) as [H2|H2]; cbn [andb].
        -- rewrite <- Comb2 by lia. f_equal. lia.
        -- destruct (Nat.ltb_spec i (64 * (q + (n - 1) + 1))); [lia|]. rewrite andb_false_r. rewrite BW, !nth_overflow by lia. reflexivity.
      * cbn [andb]. destruct (Nat.leb_spec (64 * q + p) i), (Nat.leb_spec (length l) i); try lia; cbn [andb].
        -- destruct (Nat.ltb_spec i (64 * (q + (n - 1) + 1))); [|lia]. apply Comb; lia.
        -- reflexivity.
    + rewrite (get_nth _ _ 0%N) by lia. cbn [bind]. rewrite shl_ok by lia. cbn [bind]. rewrite set_ok by lia. cbn [bind]. rewrite upd_length, Hl1, LW.
      destruct (Nat.ltb_spec (q + (n - 1)) (T - 1)); [lia|]. cbn [bind].
      eexists; split; [reflexivity|]. apply Main.
      * apply words_upd; [assumption|]. apply word_iff. intros i Hi. rewrite tb_lor, tb_wrap. rewrite (tb_high _ _ (nth_word W1 _ Hw1)) by assumption.
        destruct (Nat.ltb_spec i 64); [lia|reflexivity].
      * now rewrite upd_length, Hl1.
      * intros i. rewrite bitat_upd by lia. destruct (dm64 i) as (a & c & Hc' & Ei). assert (Di : i / 64 = a) by (rewrite Ei; now apply div64). assert (Mi : i mod 64 = c) by (rewrite Ei; now apply mod64). rewrite Di, Mi.
        destruct (Nat.eqb_spec a (q + (n - 1))) as [->|Ha].
        -- rewrite tb_lor, tb_wrap, tb_shiftl. destruct (Nat.ltb_spec c 64); [|lia]. cbn [andb]. destruct (Nat.leb_spec p c) as [H1|H1]; cbn [andb].
           ++ rewrite HZ1 by assumption. cbn [orb]. destruct (Nat.leb_spec (length l) i); [|lia]. rewrite <- Comb2 by lia. f_equal. lia.
           ++ rewrite orb_false_r. rewrite <- bitat_eq, <- Ei by assumption. rewrite Hb1.
              destruct (Nat.leb_spec (64 * q + p) i), (Nat.leb_spec (length l) i); try lia; cbn [andb]; [|reflexivity].
              destruct (Nat.ltb_spec i (64 * (q + (n - 1) + 1))); [|lia]. apply Comb; lia.
        -- rewrite Hb1. destruct (Nat.leb_spec (64 * q + p) i), (Nat.leb_spec (length l) i); try lia; cbn [andb]; [|reflexivity].
           destruct (Nat.ltb_spec i (64 * (q + (n - 1) + 1))) as [H2|H2]; [apply Comb; lia|]. rewrite BW, !nth_overflow by lia. reflexivity.
Qed.

(** ** Reading, stated on lists of bits *)
Lemma ok_after os b : bops_legal [] os -> bvb_ops bvb_empty os = Ok b -> bvb_ok b (bops_meaning [] os).
Proof. intros L E. destruct (bvb_ops_ok os bvb_empty [] empty_ok L) as (b' & E' & H). congruence. Qed.

Lemma predecessor1_list ws l pos p fuel : repr ws l -> pos < length l -> p <= pos -> nth_error l p = Some true ->
  (forall j, p < j <= pos -> nth_error l j = Some false) -> pos < fuel -> predecessor1 ws fuel pos = Ok p.
Proof.
  intros Hr Hpos Hp Hb Hg Hf. apply predecessor1_ok; try assumption.
  - apply Hr.
  - apply (repr_fit ws l (S pos)); assumption.
  - rewrite (repr_bits _ _ Hr). now apply nth_error_nth.
  - intros j Hj. rewrite (repr_bits _ _ Hr). apply nth_error_nth. now apply Hg.
  - pose proof (Nat.div_le_upper_bound pos 64 pos). lia.
Qed.

Lemma get_word64_list ws l pos : repr ws l -> pos < length l -> get_word64 ws pos = Ok (number (firstn 64 (skipn pos l))).
Proof.
  intros Hr Hp. destruct (get_word64_ok ws pos) as (r & -> & Hf); [apply Hr|now apply (repr_fit ws l (S pos))|].
  f_equal. now apply (field_number ws).
Qed.

Lemma get_word56_list ws l tail pos len : repr ws l -> (tail < W64)%N -> len <= 57 -> pos + len <= length l ->
  exists r, get_word56 ws tail pos = Ok r /\ (r mod 2 ^ N.of_nat len)%N = number (firstn len (skipn pos l)).
Proof.
  intros Hr Ht Hl Hp. destruct (get_word56_field ws tail pos len) as (r & E & _ & Hf); [apply Hr|assumption|assumption|now apply (repr_fit ws l)|].
  exists r. split; [assumption|]. rewrite <- N.land_ones. now apply (field_number ws).
Qed.

Lemma cnt_shift f q p : q <= p -> cnt (fun j => (q <=? j) && f j) p = cnt (fun j => f (q + j)) (p - q).
Proof.
  intros H. replace p with (q + (p - q)) at 1 by lia. rewrite cnt_app. rewrite cnt_zero.
  - cbn [Nat.add]. apply cnt_ext. intros j Hj. destruct (Nat.leb_spec q (q + j)); [reflexivity|lia].
  - intros j Hj. destruct (Nat.leb_spec q j); [lia|reflexivity].
Qed.

Lemma nth_skipn_true {A} (l : list A) q j d : nth j (skipn q l) d = nth (q + j) l d.
Proof. apply nth_skipn'. Qed.

Lemma div_window p : 64 * (p / 64) <= p <= 64 * (p / 64 + 1).
Proof. pose proof (Nat.div_mod p 64 ltac:(lia)). pose proof (Nat.mod_upper_bound p 64 ltac:(lia)). lia. Qed.

Lemma skip_list ws l pos k p fuel : repr ws l -> pos < length l -> pos <= p -> is_select true (skipn pos l) k (p - pos) -> length ws < fuel ->
  exists u u', ui_new ws pos = Ok u /\ ui_skip ws fuel u k = Ok u' /\ u_pos u' = p /\
    forall n, n <= length (ones_from l p) -> ui_take ws fuel u' n = Ok (firstn n (ones_from l p)).
Proof.
  intros Hr Hpos Hp Hs Hf. apply select_true in Hs as [Hb Hc]. rewrite nth_skipn_true in Hb. replace (pos + (p - pos)) with p in Hb by lia.
  destruct (ui_new_ok ws pos) as (u & E & Eu & Hok); [apply Hr|now apply (repr_fit ws l (S pos))|].
  assert (Hpl : p < length l) by (destruct (Nat.lt_ge_cases p (length l)); [assumption|]; rewrite nth_overflow in Hb by assumption; discriminate).
  pose proof (repr_fit ws l (S p) Hr Hpl) as Hpw. pose proof (div_window pos) as W.
  destruct (ui_skip_ok ws u pos k p fuel) as (u' & E' & Eu' & Hok'); [apply Hr|assumption|now rewrite Eu| | |pose proof (div_window p); lia|].
  - apply from_intro; [assumption|]. now rewrite (repr_bits _ _ Hr).
  - unfold from_. rewrite cnt_shift by assumption. rewrite <- Hc. apply cnt_ext. intros j _. now rewrite (repr_bits _ _ Hr), nth_skipn_true.
  - exists u, u'. split; [assumption|]. split; [assumption|]. split; [assumption|]. intros n Hn. apply ui_take_ok; try assumption. rewrite Eu'. apply div_window.
Qed.

Lemma ones_from_zero l p : nth_error l p = Some false -> ones_from l p = ones_from l (p + 1).
Proof.
  intros H. assert (Hl : p < length l) by (apply nth_error_Some; congruence). unfold ones_from. replace (length l - p) with (1 + (length l - (p + 1))) by lia.
  rewrite seq_app, filter_app. cbn [seq filter]. rewrite (nth_error_nth _ _ _ H). reflexivity.
Qed.

Lemma skip0_list ws l pos k p fuel : repr ws l -> pos < length l -> pos <= p -> is_select false (skipn pos l) k (p - pos) -> length ws < fuel ->
  exists u u', ui_new ws pos = Ok u /\ ui_skip0 ws fuel u k = Ok u' /\ u_pos u' = p /\
    forall n, n <= length (ones_from l p) -> ui_take ws fuel u' n = Ok (firstn n (ones_from l p)).
Proof.
  intros Hr Hpos Hp Hs Hf. pose proof Hs as [Hse _]. apply select_false in Hs as [Hb Hc]. rewrite nth_skipn_true in Hb. replace (pos + (p - pos)) with p in Hb by lia.
  destruct (ui_new_ok ws pos) as (u & E & Eu & Hok); [apply Hr|now apply (repr_fit ws l (S pos))|].
  assert (Hpl : p < length l).
  { assert (p - pos < length (skipn pos l)) by (apply nth_error_Some; congruence). rewrite skipn_length in *. lia. }
  pose proof (repr_fit ws l (S p) Hr Hpl) as Hpw. pose proof (div_window pos) as W.
  assert (Hnth : forall j, j < length l -> nth j l true = nth j l false) by (intros j Hj; now apply nth_indep).
  destruct (ui_skip0_ok ws u pos k p fuel) as (u' & E' & Eu' & Hok'); [apply Hr|assumption|rewrite Eu; lia|lia| | |pose proof (div_window p); lia|].
  - rewrite Eu. unfold gap_, from_. rewrite (repr_bits _ _ Hr), <- Hnth, Hb by assumption. destruct (Nat.leb_spec pos p); [reflexivity|lia].
  - rewrite Eu. rewrite (cnt_ext _ (fun j => (pos <=? j) && negb (nth j l true))).
    + rewrite (cnt_shift (fun j => negb (nth j l true))) by assumption. rewrite <- Hc. apply cnt_ext. intros j _. now rewrite nth_skipn_true.
    + intros j Hj. unfold gap_, from_. rewrite (repr_bits _ _ Hr), Hnth by lia. destruct (pos <=? j); reflexivity.
  - assert (Hz : nth_error l p = Some false) by (rewrite (nth_error_nth' l true Hpl); now rewrite Hb).
    exists u, u'. split; [assumption|]. split; [assumption|]. split; [assumption|]. rewrite (ones_from_zero l p Hz). intros n Hn. apply ui_take_ok; try assumption. rewrite Eu'.
    pose proof (Nat.div_mod p 64 ltac:(lia)). pose proof (Nat.mod_upper_bound p 64 ltac:(lia)). lia.
Qed.
