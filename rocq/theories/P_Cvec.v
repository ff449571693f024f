(** compact_vector. *)
From Verif Require Import Base M_Word S_Bits P_Word M_Bits P_Bits P_Rank P_BitsRead P_BitsIter M_Cvec.
Local Open Scope nat_scope.

(** ** Writing a field of w bits, of a value with possibly more *)
Lemma low_write w0 p w v c : c < 64 -> p < 64 ->
  tb (N.lor (N.land w0 (wnot (wrap (N.shiftl (N.ones (N.of_nat w)) (N.of_nat p))))) (wrap (N.shiftl v (N.of_nat p)))) c =
  if c <? p then tb w0 c else if c <? p + w then tb v (c - p) else tb w0 c || tb v (c - p).
Proof.
  intros Hc Hp. rewrite tb_lor, tb_land, tb_wnot, !tb_wrap, !tb_shiftl, tb_ones. destruct (Nat.ltb_spec c 64); [|lia]. cbn [andb].
  destruct (Nat.leb_spec p c), (Nat.ltb_spec c p); try (exfalso; lia); cbn [andb negb].
  - destruct (Nat.ltb_spec (c - p) w), (Nat.ltb_spec c (p + w)); try (exfalso; lia); cbn [negb]; [now rewrite andb_false_r|now rewrite andb_true_r].
  - now rewrite andb_true_r, orb_false_r.
Qed.
Lemma high_write w0 st w v c : c < 64 ->
  tb (N.lor (N.land w0 (wnot (N.shiftr (N.ones (N.of_nat w)) (N.of_nat st)))) (N.shiftr v (N.of_nat st))) c =
  if c + st <? w then tb v (c + st) else tb w0 c || tb v (c + st).
Proof.
  intros Hc. rewrite tb_lor, tb_land, tb_wnot, !tb_shiftr, tb_ones. destruct (Nat.ltb_spec c 64); [|lia].
  destruct (Nat.ltb_spec (c + st) w); cbn [negb]; [now rewrite andb_false_r|now rewrite andb_true_r].
Qed.

(** The two words written by push_back and set. *)
Definition wlow (ws : list N) (q p w : nat) (v : N) : N :=
  N.lor (N.land (nth q ws 0%N) (wnot (wrap (N.shiftl (N.ones (N.of_nat w)) (N.of_nat p))))) (wrap (N.shiftl v (N.of_nat p))).
Definition whigh (ws : list N) (q st w : nat) (v : N) : N :=
  N.lor (N.land (nth q ws 0%N) (wnot (N.shiftr (N.ones (N.of_nat w)) (N.of_nat st)))) (N.shiftr v (N.of_nat st)).
Definition wrote (ws : list N) (q p w : nat) (v : N) : list N :=
  let ws1 := upd ws q (wlow ws q p w v) in if 64 - p <? w then upd ws1 (q + 1) (whigh ws (q + 1) (64 - p) w v) else ws1.

Lemma wrote_words ws q p w v : words ws -> (v < W64)%N -> words (wrote ws q p w v).
Proof.
  intros Hw Hv. assert (H1 : words (upd ws q (wlow ws q p w v))).
  { apply words_upd; [assumption|]. apply lor_lt; [now apply land_lt, nth_word|apply wrap_lt]. }
  unfold wrote. destruct (_ <? _); [|assumption]. apply words_upd; [assumption|]. apply lor_lt; [now apply land_lt, nth_word|now apply shiftr_lt].
Qed.
Lemma wrote_length ws q p w v : length (wrote ws q p w v) = length ws.
Proof. unfold wrote. destruct (_ <? _); now rewrite ?upd_length. Qed.
(** Below the field nothing changes; the field holds the low w bits. *)
Lemma wrote_bits ws q p w v i : p < 64 -> w <= 64 -> 64 * q + p + w <= 64 * length ws -> 1 <= w -> i < 64 * q + p + w ->
  bitat (wrote ws q p w v) i = if i <? 64 * q + p then bitat ws i else tb v (i - (64 * q + p)).
Proof.
  intros Hp Hw64 Hfit Hw Hi. destruct (dm64 i) as (a & c & Hc & ->). rewrite !bitat_eq by assumption. unfold wrote.
  destruct (Nat.ltb_spec (64 - p) w) as [Ho|Ho].
  - rewrite !upd_nth, upd_length. destruct (Nat.ltb_spec (q + 1) (length ws)), (Nat.ltb_spec q (length ws)); try (exfalso; lia). rewrite !andb_true_r.
    destruct (Nat.eqb_spec (q + 1) a) as [<-|].
    + unfold whigh. rewrite high_write by assumption. destruct (Nat.ltb_spec (64 * (q + 1) + c) (64 * q + p)); [lia|].
      destruct (Nat.ltb_spec (c + (64 - p)) w); [f_equal; lia|lia].
    + destruct (Nat.eqb_spec q a) as [<-|].
      * unfold wlow. rewrite low_write by assumption. destruct (Nat.ltb_spec c p), (Nat.ltb_spec (64 * q + c) (64 * q + p)); try (exfalso; lia); [reflexivity|].
        destruct (Nat.ltb_spec c (p + w)); [f_equal; lia|lia].
      * destruct (Nat.ltb_spec (64 * a + c) (64 * q + p)); [reflexivity|lia].
  - rewrite !upd_nth. destruct (Nat.ltb_spec q (length ws)); try (exfalso; lia). rewrite andb_true_r.
    destruct (Nat.eqb_spec q a) as [<-|].
    + unfold wlow. rewrite low_write by assumption. destruct (Nat.ltb_spec c p), (Nat.ltb_spec (64 * q + c) (64 * q + p)); try (exfalso; lia); [reflexivity|].
      destruct (Nat.ltb_spec c (p + w)); [f_equal; lia|lia].
    + destruct (Nat.ltb_spec (64 * a + c) (64 * q + p)); [reflexivity|lia].
Qed.
(** A value that fits changes nothing above the field. *)
Lemma wrote_above ws q p w v i : p < 64 -> w <= 64 -> 64 * q + p + w <= 64 * length ws -> 1 <= w -> (v < 2 ^ N.of_nat w)%N -> 64 * q + p + w <= i ->
  bitat (wrote ws q p w v) i = bitat ws i.
Proof.
  intros Hp Hw64 Hfit Hw Hv Hi. pose proof (below_tb w v Hv) as Hvb. destruct (dm64 i) as (a & c & Hc & ->). rewrite !bitat_eq by assumption. unfold wrote.
  destruct (Nat.ltb_spec (64 - p) w) as [Ho|Ho].
  - rewrite !upd_nth, upd_length. destruct (Nat.ltb_spec (q + 1) (length ws)), (Nat.ltb_spec q (length ws)); try (exfalso; lia). rewrite !andb_true_r.
    destruct (Nat.eqb_spec (q + 1) a) as [<-|].
    + unfold whigh. rewrite high_write by assumption. destruct (Nat.ltb_spec (c + (64 - p)) w); [lia|]. rewrite Hvb by lia. apply orb_false_r.
    + destruct (Nat.eqb_spec q a) as [<-|]; [lia|reflexivity].
  - rewrite !upd_nth. destruct (Nat.ltb_spec q (length ws)); try (exfalso; lia). rewrite andb_true_r.
    destruct (Nat.eqb_spec q a) as [<-|]; [|reflexivity].
    unfold wlow. rewrite low_write by assumption. destruct (Nat.ltb_spec c p); [lia|]. destruct (Nat.ltb_spec c (p + w)); [lia|]. rewrite Hvb by lia. apply orb_false_r.
Qed.

(** ** The builder *)
Record cvb_ok (b : cvb) (n w : nat) (l : list N) : Prop := {
  co_width : cb_width b = w;
  co_size : cb_size b = n;
  co_mask : cb_mask b = N.ones (N.of_nat w);
  co_words : words (cb_bits b);
  co_len : length (cb_bits b) = words_for (n * w);
  co_pos : 64 * cb_block b + cb_shift b = length l * w;
  co_shift : cb_shift b < 64;
  co_bits : forall i c, i < length l -> c < w -> bitat (cb_bits b) (i * w + c) = tb (nth i l 0%N) c
}.

Lemma cvb_new_ok n w : 1 <= w < 64 -> exists b, cvb_new n w = Ok b /\ cvb_ok b n w [].
Proof.
  intros Hw. unfold cvb_new. rewrite mask_of_ok by lia. cbn [bind]. destruct (Nat.eqb_spec w 0), (Nat.ltb_spec 64 w); try (exfalso; lia). cbn [orb].
  eexists; split; [reflexivity|]. split; cbn; auto; try lia; [apply words_repeat; reflexivity|now rewrite repeat_length].
Qed.
Lemma cvb_new_resize_eq n w : 1 <= w < 64 -> cvb_new_resize n w = cvb_new n w.
Proof.
  intros Hw. unfold cvb_new, cvb_new_resize. rewrite mask_of_ok by lia. cbn [bind]. destruct (Nat.eqb_spec w 0), (Nat.ltb_spec 64 w); try (exfalso; lia). reflexivity.
Qed.

Lemma field_fit n w i : i < n -> i * w + w <= 64 * words_for (n * w).
Proof. intros H. pose proof (words_for_bound (n * w)). assert ((i + 1) * w <= n * w) by (apply Nat.mul_le_mono_r; lia). lia. Qed.

Lemma cvb_push_ok b n w l v : cvb_ok b n w l -> 1 <= w < 64 -> length l < n -> (v < W64)%N -> exists b', cvb_push b v = Ok b' /\ cvb_ok b' n w (l ++ [v]).
Proof.
  intros [Hwd Hs Hm Hw Hl Hp Hsh Hb] Hw64 Hn Hv. unfold cvb_push. pose proof (field_fit n w (length l) Hn) as Hfit. rewrite <- Hl, <- Hp in Hfit.
  rewrite Hm, Hwd. set (q := cb_block b) in *. set (p := cb_shift b) in *. set (ws := cb_bits b) in *.
  rewrite (get_nth ws q 0%N) by lia. cbn [bind]. rewrite !shl_ok by assumption. cbn [bind]. rewrite set_ok by lia. cbn [bind].
  pose proof (eq_refl (wlow ws q p w v)) as EW. unfold wlow at 1 in EW. rewrite EW. clear EW.
  assert (Hfinal : forall blk sh, 64 * blk + sh = length (l ++ [v]) * w -> sh < 64 ->
     cvb_ok {| cb_size := cb_size b; cb_width := w; cb_mask := N.ones (N.of_nat w); cb_block := blk; cb_shift := sh; cb_bits := wrote ws q p w v |} n w (l ++ [v])).
  { intros blk sh E1 E2. split; cbn; auto.
    - now apply wrote_words.
    - now rewrite wrote_length.
    - intros i c Hi Hc. rewrite app_length in Hi. cbn in Hi.
      assert (Hiw : i = length l \/ (i + 1) * w <= length l * w) by (destruct (Nat.eq_dec i (length l)); [now left|right; apply Nat.mul_le_mono_r; lia]).
      rewrite wrote_bits by (try assumption; try lia; destruct Hiw as [->|]; lia).
      rewrite nth_app_if. destruct Hiw as [->|Hiw].
      + rewrite Nat.ltb_irrefl, Nat.sub_diag. cbn [nth]. destruct (Nat.ltb_spec (length l * w + c) (64 * q + p)); [lia|]. f_equal. lia.
      + destruct (Nat.ltb_spec (i * w + c) (64 * q + p)); [|lia]. destruct (Nat.ltb_spec i (length l)).
        * now apply Hb.
        * exfalso. assert (length l * w <= i * w) by (apply Nat.mul_le_mono_r; lia). lia. }
  assert (Hlen : length (l ++ [v]) * w = 64 * q + p + w) by (rewrite app_length; cbn [length]; lia).
  unfold wrote in Hfinal. destruct (Nat.ltb_spec (64 - p) w) as [Ho|Ho].
  - rewrite (get_nth _ (q + 1) 0%N) by (rewrite upd_length; lia). cbn [bind]. rewrite !shr_ok by lia. cbn [bind]. rewrite set_ok by (rewrite upd_length; lia). cbn [bind].
    assert (E : nth (q + 1) (upd ws q (wlow ws q p w v)) 0%N = nth (q + 1) ws 0%N) by (rewrite upd_nth; destruct (Nat.eqb_spec q (q + 1)); [lia|reflexivity]).
    rewrite E. pose proof (eq_refl (whigh ws (q + 1) (64 - p) w v)) as EW. unfold whigh at 1 in EW. rewrite EW. clear EW.
    destruct (Nat.eqb_spec (w - (64 - p)) 64); [lia|]. eexists; split; [reflexivity|]. apply Hfinal; lia.
  - cbn [bind]. destruct (Nat.eqb_spec (p + w) 64); eexists; (split; [reflexivity|]); apply Hfinal; lia.
Qed.
Lemma cvb_fill_ok n w : 1 <= w < 64 -> forall vs b l, cvb_ok b n w l -> length l + length vs <= n -> Forall (fun v => (v < W64)%N) vs ->
  exists b', cvb_fill b vs = Ok b' /\ cvb_ok b' n w (l ++ vs).
Proof.
  intros Hw. induction vs as [|v vs IH]; intros b l Hb Hn Hv; cbn [cvb_fill].
  - exists b. rewrite app_nil_r. now split.
  - inversion Hv; subst. cbn [length] in Hn. destruct (cvb_push_ok b n w l v) as (b1 & -> & Hb1); try assumption; [lia|]. cbn [bind].
    destruct (IH b1 (l ++ [v]) Hb1) as (b2 & -> & Hb2); [rewrite app_length; cbn; lia|assumption|]. exists b2. split; [reflexivity|].
    now rewrite <- app_assoc in Hb2.
Qed.
(** set of a value that fits. *)
Lemma cvb_set_ok b n w l i v : cvb_ok b n w l -> 1 <= w < 64 -> i < length l -> length l <= n -> (v < 2 ^ N.of_nat w)%N ->
  exists b', cvb_set b i v = Ok b' /\ cvb_ok b' n w (upd l i v).
Proof.
  intros [Hwd Hs Hm Hw Hl Hp Hsh Hb] Hw64 Hil Hln Hv. assert (Hn : i < n) by lia. unfold cvb_set. pose proof (field_fit n w i Hn) as Hfit. rewrite <- Hl in Hfit.
  assert (HvW : (v < W64)%N) by (apply word_iff; intros j Hj; apply (below_tb w v Hv); lia).
  rewrite Hm, Hwd. destruct (dm64 (i * w)) as (q & p & Hp64 & E). rewrite E in *. rewrite div64, mod64 by assumption. set (ws := cb_bits b) in *.
  rewrite (get_nth ws q 0%N) by lia. cbn [bind]. rewrite !shl_ok by assumption. cbn [bind]. rewrite set_ok by lia. cbn [bind].
  pose proof (eq_refl (wlow ws q p w v)) as EW. unfold wlow at 1 in EW. rewrite EW. clear EW.
  assert (Hfinal : cvb_ok {| cb_size := cb_size b; cb_width := w; cb_mask := N.ones (N.of_nat w); cb_block := cb_block b; cb_shift := cb_shift b; cb_bits := wrote ws q p w v |} n w (upd l i v)).
  { split; cbn; auto.
    - now apply wrote_words.
    - now rewrite wrote_length.
    - now rewrite upd_length.
    - intros j c Hj Hc. rewrite upd_length in Hj. rewrite upd_nth. destruct (Nat.ltb_spec i (length l)); [|lia]. rewrite andb_true_r.
      destruct (Nat.lt_trichotomy j i) as [L|[->|L]].
      + assert ((j + 1) * w <= i * w) by (apply Nat.mul_le_mono_r; lia). rewrite wrote_bits by (assumption || lia).
        destruct (Nat.ltb_spec (j * w + c) (64 * q + p)); [|lia]. destruct (Nat.eqb_spec i j); [lia|]. now apply Hb.
      + rewrite wrote_bits by (assumption || lia). destruct (Nat.ltb_spec (i * w + c) (64 * q + p)); [lia|]. rewrite Nat.eqb_refl. f_equal. lia.
      + assert ((i + 1) * w <= j * w) by (apply Nat.mul_le_mono_r; lia). rewrite wrote_above by (assumption || lia). destruct (Nat.eqb_spec i j); [lia|]. now apply Hb. }
  unfold wrote in Hfinal. destruct (Nat.ltb_spec (64 - p) w) as [Ho|Ho].
  - rewrite (get_nth _ (q + 1) 0%N) by (rewrite upd_length; lia). cbn [bind]. rewrite !shr_ok by lia. cbn [bind]. rewrite set_ok by (rewrite upd_length; lia). cbn [bind].
    assert (E2 : nth (q + 1) (upd ws q (wlow ws q p w v)) 0%N = nth (q + 1) ws 0%N) by (rewrite upd_nth; destruct (Nat.eqb_spec q (q + 1)); [lia|reflexivity]).
    rewrite E2. pose proof (eq_refl (whigh ws (q + 1) (64 - p) w v)) as EW. unfold whigh at 1 in EW. rewrite EW. clear EW. eexists; split; [reflexivity|]. exact Hfinal.
  - cbn [bind]. eexists; split; [reflexivity|]. exact Hfinal.
Qed.

(** ** Reading *)
Record cv_ok (v : cvec) (w : nat) (l : list N) : Prop := {
  cvo_width : cv_width v = w;
  cvo_size : cv_size v = length l;
  cvo_mask : cv_mask v = N.ones (N.of_nat w);
  cvo_words : words (cv_bits v);
  cvo_len : length (cv_bits v) = words_for (length l * w);
  cvo_bits : forall i c, i < length l -> c < w -> bitat (cv_bits v) (i * w + c) = tb (nth i l 0%N) c
}.
Lemma cv_build_width_ok l w : 1 <= w < 64 -> Forall (fun v => (v < W64)%N) l -> exists v, cv_build_width l w = Ok v /\ cv_ok v w l.
Proof.
  intros Hw Hl. unfold cv_build_width. destruct (cvb_new_ok (length l) w Hw) as (b & -> & Hb). cbn [bind].
  destruct (cvb_fill_ok (length l) w Hw l b [] Hb) as (b' & -> & Hb'); [cbn; lia|assumption|]. cbn [bind]. eexists; split; [reflexivity|].
  destruct Hb'. now split.
Qed.

Lemma cv_field v w l i r : cv_ok v w l -> 1 <= w < 64 -> i < length l -> field (cv_bits v) (i * w) w r -> r = (nth i l 0 mod 2 ^ N.of_nat w)%N.
Proof.
  intros H Hw Hi Hf. apply tb_ext. intros c. rewrite Hf, tb_mod_pow. destruct (Nat.ltb_spec c w); [|reflexivity]. cbn [andb]. now apply H.
Qed.
Lemma cv_fit v w l i : cv_ok v w l -> i < length l -> i * w + w <= 64 * length (cv_bits v).
Proof. intros H Hi. rewrite (cvo_len _ _ _ H). now apply field_fit. Qed.
Lemma cv_at_ok v w l i : cv_ok v w l -> 1 <= w < 64 -> i < length l -> cv_at v i = Ok (nth i l 0 mod 2 ^ N.of_nat w)%N.
Proof.
  intros H Hw Hi. unfold cv_at. rewrite (cvo_width _ _ _ H), (cvo_mask _ _ _ H).
  destruct (read_bits_ok (cv_bits v) (i * w) w) as (r & -> & Hf); [apply H|lia|now apply (cv_fit v w l)|]. f_equal. now apply (cv_field v).
Qed.
Lemma cv_access_eq v tail i : cv_access v tail i = (do r <- get_word56 (cv_bits v) tail (i * cv_width v); Ok (N.land r (cv_mask v))).
Proof. unfold cv_access, get_word56. cbn zeta. destruct (load64 _ _ _); reflexivity. Qed.
Lemma cv_access_ok v w l tail i : cv_ok v w l -> 1 <= w <= 57 -> (tail < W64)%N -> i < length l -> cv_access v tail i = Ok (nth i l 0 mod 2 ^ N.of_nat w)%N.
Proof.
  intros H Hw Ht Hi. rewrite cv_access_eq, (cvo_width _ _ _ H), (cvo_mask _ _ _ H).
  destruct (get_word56_field (cv_bits v) tail (i * w) w) as (r & -> & _ & Hf); [apply H|assumption|lia|now apply (cv_fit v w l)|].
  cbn [bind]. f_equal. apply (cv_field v w l); try assumption. lia.
Qed.

Lemma e_read_eq v e w : cv_width v = w -> w <= 64 -> e_shift e < 64 -> exists e',
  e_read v e = (do r <- read_bits (cv_bits v) (64 * e_block e + e_shift e) w (cv_mask v); Ok (r, e')) /\ e_i e' = e_i e /\
    64 * e_block e' + e_shift e' = 64 * e_block e + e_shift e + w /\ e_shift e' < 64.
Proof.
  intros Hw Hw64 Hs. unfold e_read, read_bits. rewrite div64, mod64, Hw by assumption.
  destruct (get (cv_bits v) (e_block e)) as [x| | |]; cbn [bind].
  2-4: exists {| e_i := e_i e; e_block := (64 * e_block e + e_shift e + w) / 64; e_shift := (64 * e_block e + e_shift e + w) mod 64 |};
       (split; [reflexivity|]); cbn [e_i e_block e_shift]; rewrite <- Nat.div_mod by lia; repeat split; apply Nat.mod_upper_bound; lia.
  destruct (shr x (e_shift e)) as [y| | |]; cbn [bind].
  2-4: exists {| e_i := e_i e; e_block := (64 * e_block e + e_shift e + w) / 64; e_shift := (64 * e_block e + e_shift e + w) mod 64 |};
       (split; [reflexivity|]); cbn [e_i e_block e_shift]; rewrite <- Nat.div_mod by lia; repeat split; apply Nat.mod_upper_bound; lia.
  destruct (Nat.leb_spec (e_shift e + w) 64) as [H|H]; cbn [bind].
  - destruct (Nat.eqb_spec (e_shift e + w) 64).
    + exists {| e_i := e_i e; e_block := e_block e + 1; e_shift := 0 |}. split; [reflexivity|]. cbn [e_i e_block e_shift]. repeat split; lia.
    + exists {| e_i := e_i e; e_block := e_block e; e_shift := e_shift e + w |}. split; [reflexivity|]. cbn [e_i e_block e_shift]. repeat split; lia.
  - exists {| e_i := e_i e; e_block := e_block e + 1; e_shift := w - (64 - e_shift e) |}. split; [|cbn [e_i e_block e_shift]; repeat split; lia].
    destruct (get (cv_bits v) (e_block e + 1)) as [z| | |]; cbn [bind]; try reflexivity. destruct (shl z (64 - e_shift e)); cbn [bind]; try reflexivity.
    destruct (Nat.eqb_spec (w - (64 - e_shift e)) 64); [lia|reflexivity].
Qed.
Lemma e_take_ok v w l : cv_ok v w l -> 1 <= w < 64 -> forall n e i, 64 * e_block e + e_shift e = i * w -> e_shift e < 64 -> i + n <= length l ->
  e_take v e n = Ok (map (fun x => (x mod 2 ^ N.of_nat w)%N) (firstn n (skipn i l))).
Proof.
  intros H Hw. induction n as [|n IH]; intros e i He Hs Hn; [reflexivity|]. cbn [e_take].
  destruct (e_read_eq v e w) as (e' & -> & _ & Ep & Es'); [apply H|lia|assumption|].
  rewrite He, (cvo_mask _ _ _ H). destruct (read_bits_ok (cv_bits v) (i * w) w) as (r & -> & Hf); [apply H|lia|apply (cv_fit v w l); [assumption|lia]|].
  cbn [bind]. rewrite (IH (e_next e') (i + 1)); [|cbn [e_next e_block e_shift]; lia|assumption|lia]. cbn [bind]. rewrite (cv_field v w l i r) by (assumption || lia).
  assert (E : skipn i l = nth i l 0%N :: skipn (i + 1) l).
  { clear -Hn. revert l Hn. induction i as [|i IH]; intros [|x l] Hn; cbn in Hn; try lia; [reflexivity|]. apply (IH l). lia. }
  rewrite E. reflexivity.
Qed.
