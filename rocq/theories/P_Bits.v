(** Bit vectors: words against lists of bits. *)
From Verif Require Import Base M_Word S_Bits P_Word M_Bits.
Local Open Scope nat_scope.

(** ** Positions *)
Lemma dm64 i : exists a b, b < 64 /\ i = 64 * a + b.
Proof. exists (i / 64), (i mod 64). split; [apply Nat.mod_upper_bound; lia|]. apply Nat.div_mod. lia. Qed.
Lemma div64 a b : b < 64 -> (64 * a + b) / 64 = a.
Proof. intros H. symmetry. apply Nat.div_unique with b; lia. Qed.
Lemma mod64 a b : b < 64 -> (64 * a + b) mod 64 = b.
Proof. intros H. symmetry. apply Nat.mod_unique with a; lia. Qed.
Lemma words_for_eq a b : b < 64 -> words_for (64 * a + b) = if b =? 0 then a else a + 1.
Proof.
  intros H. unfold words_for. destruct (Nat.eqb_spec b 0).
  - symmetry. apply Nat.div_unique with 63; lia.
  - symmetry. apply Nat.div_unique with (b - 1); lia.
Qed.
Lemma words_for_bound n : n <= 64 * words_for n /\ 64 * words_for n < n + 64.
Proof.
  destruct (dm64 n) as (a & b & Hb & ->). rewrite words_for_eq by assumption. destruct (Nat.eqb_spec b 0); lia.
Qed.

Definition bitat (ws : list N) (i : nat) : bool := tb (nth (i / 64) ws 0%N) (i mod 64).
Definition words (ws : list N) : Prop := Forall (fun w => (w < W64)%N) ws.

Lemma bitat_eq ws a b : b < 64 -> bitat ws (64 * a + b) = tb (nth a ws 0%N) b.
Proof. intros H. unfold bitat. now rewrite div64, mod64. Qed.
Lemma bitat_high ws i : 64 * length ws <= i -> bitat ws i = false.
Proof.
  intros H. destruct (dm64 i) as (a & b & Hb & ->). rewrite bitat_eq by assumption. rewrite nth_overflow by lia. apply tb_of.
Qed.
Lemma nth_word ws a : words ws -> (nth a ws 0 < W64)%N.
Proof.
  intros H. destruct (Nat.lt_ge_cases a (length ws)).
  - apply (proj1 (Forall_forall _ _) H). now apply nth_In.
  - rewrite nth_overflow by assumption. reflexivity.
Qed.
Lemma words_upd ws i w : words ws -> (w < W64)%N -> words (upd ws i w).
Proof.
  intros H Hw. apply Forall_forall. intros x Hx. apply In_nth_error in Hx as [j Hj].
  rewrite upd_nth_error in Hj. destruct ((i =? j) && (i <? length ws)).
  - congruence.
  - apply nth_error_In in Hj. now apply (proj1 (Forall_forall _ _) H).
Qed.
Lemma words_app ws vs : words ws -> words vs -> words (ws ++ vs).
Proof. intros H H'. apply Forall_app. now split. Qed.
Lemma words_repeat n w : (w < W64)%N -> words (repeat w n).
Proof. intros H. apply Forall_forall. intros x Hx. apply repeat_spec in Hx. now subst. Qed.

Lemma nth_app_if {A} (l m : list A) i d : nth i (l ++ m) d = if i <? length l then nth i l d else nth (i - length l) m d.
Proof. destruct (Nat.ltb_spec i (length l)); [now apply app_nth1|now apply app_nth2]. Qed.
Lemma nth_repeat_if {A} (x : A) n i d : nth i (repeat x n) d = if i <? n then x else d.
Proof.
  destruct (Nat.ltb_spec i n).
  - revert i H. induction n; intros [|i] H; cbn; try lia; auto. apply IHn. lia.
  - apply nth_overflow. now rewrite repeat_length.
Qed.
Lemma nth_bits_of n x i : nth i (bits_of n x) false = (i <? n) && tb x i.
Proof.
  destruct (Nat.ltb_spec i n).
  - apply nth_error_nth. now apply bits_of_nth.
  - apply nth_overflow. now rewrite bits_of_length.
Qed.
Lemma nth_skipn' {A} (l : list A) k i d : nth i (skipn k l) d = nth (k + i) l d.
Proof. revert k; induction l as [|x l IH]; intros [|k]; cbn; auto; destruct i; auto. Qed.
Lemma nth_firstn_if {A} (l : list A) n i d : nth i (firstn n l) d = if i <? n then nth i l d else d.
Proof.
  revert n i; induction l as [|x l IH]; intros n i; [rewrite firstn_nil; now destruct (i <? n), i|].
  destruct n as [|n]; [now destruct i|]. destruct i as [|i]; [reflexivity|]. cbn [firstn nth]. rewrite IH. reflexivity.
Qed.

(** The words hold the bits of the list, the rest of the last word is zero. *)
Record repr (ws : list N) (l : list bool) : Prop := {
  repr_words : words ws;
  repr_len : length ws = words_for (length l);
  repr_bits : forall i, bitat ws i = nth i l false
}.
Record bvb_ok (b : bvb) (l : list bool) : Prop := {
  bo_repr : repr (b_words b) l;
  bo_size : b_size b = length l;
  bo_cur : length l mod 64 <> 0 -> b_cur b = Some (length (b_words b) - 1)
}.

Lemma repr_intro ws l : words ws -> length ws = words_for (length l) ->
  (forall a b, b < 64 -> tb (nth a ws 0%N) b = nth (64 * a + b) l false) -> repr ws l.
Proof.
  intros Hw Hl H. split; auto. intros i. destruct (dm64 i) as (a & b & Hb & ->). rewrite bitat_eq by assumption. now apply H.
Qed.
Lemma repr_at ws l a b : repr ws l -> b < 64 -> tb (nth a ws 0%N) b = nth (64 * a + b) l false.
Proof. intros H Hb. rewrite <- (repr_bits _ _ H). now rewrite bitat_eq. Qed.
Lemma repr_beyond ws l a b : repr ws l -> b < 64 -> length l <= 64 * a + b -> tb (nth a ws 0%N) b = false.
Proof. intros H Hb Hn. rewrite (repr_at ws l) by assumption. now apply nth_overflow. Qed.

(** Length of the words of a builder, and where the last one is. *)
Lemma ok_lengths b l : bvb_ok b l -> exists q p, p < 64 /\ length l = 64 * q + p /\ b_size b = 64 * q + p /\
  length (b_words b) = (if p =? 0 then q else q + 1) /\ (p <> 0 -> b_cur b = Some q).
Proof.
  intros [Hr Hs Hc]. destruct (dm64 (length l)) as (q & p & Hp & E). exists q, p. pose proof (repr_len _ _ Hr) as HL.
  rewrite E in *. rewrite words_for_eq in HL by assumption. repeat split; auto.
  intros Hp0. rewrite mod64 in Hc by assumption. rewrite (Hc Hp0). rewrite HL. destruct (Nat.eqb_spec p 0); [contradiction|]. f_equal. lia.
Qed.

Lemma back_ptr_app ws w : back_ptr (ws ++ [w]) = Some (length ws).
Proof. unfold back_ptr. destruct (ws ++ [w]) eqn:E; [destruct ws; discriminate|]. rewrite <- E, app_length. cbn. f_equal. lia. Qed.
Lemma back_ptr_some ws : ws <> [] -> back_ptr ws = Some (length ws - 1).
Proof. destruct ws; [congruence|reflexivity]. Qed.

Lemma empty_ok : bvb_ok bvb_empty [].
Proof.
  split; [|reflexivity|cbn; congruence]. apply repr_intro; [constructor|reflexivity|].
  intros a b Hb. cbn [bvb_empty b_words]. rewrite !nth_overflow by (cbn; lia). apply tb_of.
Qed.

Lemma tb_bool (v : bool) n i : n < 64 -> tb (wrap (N.shiftl (if v then 1 else 0) (N.of_nat n))) i = v && (i =? n).
Proof.
  intros H. rewrite tb_wrap, tb_shiftl.
  assert (E : tb (if v then 1 else 0)%N (i - n) = v && (i - n =? 0)).
  { destruct v; [|apply tb_of]. unfold tb. destruct (i - n) eqn:E; [reflexivity|]. cbn [N.of_nat].
    destruct (Pos.of_succ_nat n0); reflexivity. }
  rewrite E. destruct v; cbn [andb]; [|now rewrite !andb_false_r].
  destruct (Nat.eqb_spec i n), (Nat.ltb_spec i 64), (Nat.leb_spec n i), (Nat.eqb_spec (i - n) 0); try lia; reflexivity.
Qed.

Lemma push_ok b l v : bvb_ok b l -> exists b', bvb_push b v = Ok b' /\ bvb_ok b' (l ++ [v]).
Proof.
  intros H. destruct (ok_lengths b l H) as (q & p & Hp & El & Es & Ew & Hc). destruct H as [Hr _ _].
  unfold bvb_push. rewrite Es, mod64 by assumption.
  assert (Hmain : forall ws, words ws -> length ws = q + 1 ->
    (forall a c, c < 64 -> tb (nth a ws 0%N) c = nth (64 * a + c) l false) ->
    bvb_ok {| b_words := upd ws q (N.lor (nth q ws 0%N) (wrap (N.shiftl (if v then 1 else 0) (N.of_nat p))));
              b_size := 64 * q + p + 1; b_cur := Some q |} (l ++ [v])).
  { intros ws Hws Hlen Hbits. split; cbn [b_words b_size b_cur].
    - apply repr_intro.
      + apply words_upd; [assumption|]. apply lor_lt; [now apply nth_word|apply wrap_lt].
      + rewrite upd_length, Hlen, app_length, El. cbn [length].
        replace (64 * q + p + 1) with (64 * q + (p + 1)) by lia. destruct (Nat.eq_dec p 63) as [->|].
        * replace (64 * q + (63 + 1)) with (64 * (q + 1) + 0) by lia. now rewrite words_for_eq by lia.
        * rewrite words_for_eq by lia. destruct (Nat.eqb_spec (p + 1) 0); lia.
      + intros a c Hc'. rewrite upd_nth, Hlen, nth_app_if, El.
        destruct (Nat.ltb_spec q (q + 1)); [|lia]. rewrite andb_true_r.
        destruct (Nat.eqb_spec q a) as [<-|Hqa].
        * rewrite tb_lor, tb_bool, Hbits by assumption.
          destruct (Nat.ltb_spec (64 * q + c) (64 * q + p)).
          -- destruct (Nat.eqb_spec c p); [lia|]. now rewrite andb_false_r, orb_false_r.
          -- rewrite (nth_overflow l) by lia. cbn [orb]. destruct (Nat.eqb_spec c p) as [->|].
             ++ replace (64 * q + p - (64 * q + p)) with 0 by lia. now rewrite andb_true_r.
             ++ rewrite andb_false_r. symmetry. apply nth_overflow. cbn. lia.
        * rewrite Hbits by assumption. destruct (Nat.ltb_spec (64 * a + c) (64 * q + p)); [reflexivity|].
          rewrite !nth_overflow; [reflexivity|cbn; lia|lia].
    - rewrite app_length, El. reflexivity.
    - intros _. rewrite upd_length, Hlen. f_equal. lia. }
  destruct (Nat.eqb_spec p 0) as [->|Hp0].
  - unfold cur_word. cbn [b_cur b_words b_size]. rewrite get_app_hd. cbn [bind]. rewrite shl_ok by lia. cbn [bind].
    rewrite set_ok by (rewrite app_length; cbn; lia). cbn [bind]. eexists; split; [reflexivity|]. rewrite Ew in *.
    assert (Hn : nth q (b_words b ++ [0%N]) 0%N = 0%N) by (rewrite nth_app_if, Ew, Nat.ltb_irrefl, Nat.sub_diag; reflexivity).
    pose proof (Hmain (b_words b ++ [0%N])) as Hm. rewrite Hn in Hm. apply Hm.
    + apply words_app; [apply Hr|]. constructor; [reflexivity|constructor].
    + rewrite app_length. cbn. lia.
    + intros a c Hc'. rewrite nth_app_if, Ew. destruct (Nat.ltb_spec a q); [now apply repr_at|].
      rewrite (nth_overflow l) by lia. destruct (a - q) as [|[|?]]; apply tb_of.
  - unfold cur_word. rewrite (Hc Hp0). rewrite (get_nth (b_words b) q 0%N) by lia. cbn [bind]. rewrite shl_ok by lia. cbn [bind].
    rewrite set_ok by lia. cbn [bind]. eexists; split; [reflexivity|]. rewrite Es. apply Hmain; [apply Hr|lia|].
    intros a c Hc'. now apply repr_at.
Qed.

Lemma zero_extend_ok b l n : bvb_ok b l -> bvb_ok (bvb_zero_extend b n) (l ++ repeat false n).
Proof.
  intros H. destruct (ok_lengths b l H) as (q & p & Hp & El & Es & Ew & Hc). pose proof (bo_size _ _ H) as Hsz. destruct H as [Hr _ Hcur].
  unfold bvb_zero_extend. pose proof (words_for_bound (b_size b + n)) as Hwf. pose proof (words_for_bound (b_size b)) as Hwf0.
  assert (Hmono : length (b_words b) <= words_for (b_size b + n)).
  { rewrite (repr_len _ _ Hr), <- Hsz. apply Nat.div_le_mono; lia. }
  split; cbn [b_words b_size b_cur].
  - apply repr_intro.
    + apply words_app; [apply Hr|apply words_repeat; reflexivity].
    + rewrite app_length, repeat_length, app_length, repeat_length, <- Hsz. lia.
    + intros a c Hc'. rewrite !nth_app_if, !nth_repeat_if. destruct (Nat.ltb_spec a (length (b_words b))).
      * rewrite (repr_at _ l) by assumption. destruct (Nat.ltb_spec (64 * a + c) (length l)); [reflexivity|].
        rewrite nth_overflow by assumption. now destruct (_ <? _).
      * assert (length l <= 64 * a + c) by (rewrite <- Hsz; rewrite (repr_len _ _ Hr), <- Hsz in *; lia).
        destruct (Nat.ltb_spec (64 * a + c) (length l)); [lia|]. replace (if _ <? _ then 0%N else 0%N) with 0%N by (now destruct (_ <? _)).
        rewrite tb_of. now destruct (_ <? _).
  - rewrite app_length, repeat_length. lia.
  - rewrite !app_length, !repeat_length. intros Hm.
    destruct (Nat.eqb_spec (words_for (b_size b + n) - length (b_words b)) 0) as [E0|E0].
    + rewrite E0, Nat.add_0_r. rewrite Es in *. rewrite El in *.
      destruct (Nat.eq_dec p 0) as [->|Hp0]; [|rewrite Hc by assumption; rewrite Ew; destruct (Nat.eqb_spec p 0); [contradiction|]; f_equal; lia].
      exfalso. apply Hm. assert (n = 0 \/ 0 < n) as [->|Hn] by lia.
      * rewrite !Nat.add_0_r. now rewrite (Nat.mul_comm 64 q), Nat.mod_mul.
      * cbn [Nat.eqb] in Ew. lia.
    + rewrite back_ptr_some by (intros E; apply app_eq_nil in E as [_ E]; destruct (words_for (b_size b + n) - length (b_words b)); [congruence|discriminate]).
      rewrite app_length, repeat_length. reflexivity.
Qed.

Lemma below_tb len x : (x < 2 ^ N.of_nat len)%N -> forall i, len <= i -> tb x i = false.
Proof. intros H. now apply below_pow_iff. Qed.

Lemma append_bits_ok b l x len : bvb_ok b l -> len <= 64 -> (x < 2 ^ N.of_nat len)%N ->
  exists b', bvb_append_bits b x len = Ok b' /\ bvb_ok b' (l ++ bits_of len x).
Proof.
  intros H Hlen Hx. unfold bvb_append_bits. destruct (Nat.eqb_spec len 0) as [->|Hl0].
  { exists b. split; [reflexivity|]. now rewrite app_nil_r. }
  destruct (ok_lengths b l H) as (q & p & Hp & El & Es & Ew & Hc). destruct H as [Hr _ _].
  rewrite Es, mod64 by assumption.
  pose proof (below_tb len x Hx) as Hxb.
  assert (HxW : (x < W64)%N) by (apply word_iff; intros i Hi; apply Hxb; lia).
  destruct (Nat.eqb_spec p 0) as [->|Hp0].
  - cbn [bind]. eexists; split; [reflexivity|]. cbn [Nat.eqb] in Ew. split; cbn [b_words b_size b_cur].
    + apply repr_intro.
      * apply words_app; [apply Hr|]. constructor; [assumption|constructor].
      * rewrite !app_length, bits_of_length, Ew, El. cbn [length]. rewrite Nat.add_0_r.
        destruct (Nat.eq_dec len 64) as [->|].
        -- replace (64 * q + 64) with (64 * (q + 1) + 0) by lia. now rewrite words_for_eq by lia.
        -- rewrite words_for_eq by lia. destruct (Nat.eqb_spec len 0); lia.
      * intros a c Hc'. rewrite !nth_app_if, Ew, El, Nat.add_0_r, nth_bits_of.
        destruct (Nat.ltb_spec a q), (Nat.ltb_spec (64 * a + c) (64 * q)); try lia.
        -- now apply repr_at.
        -- assert (a = q \/ q < a) as [->|Ha] by lia.
           ++ rewrite Nat.sub_diag. cbn [nth]. replace (64 * q + c - 64 * q) with c by lia.
              destruct (Nat.ltb_spec c len); [reflexivity|]. now apply Hxb.
           ++ destruct (a - q) as [|[|k]] eqn:E; try lia; cbn [nth]; rewrite tb_of; (destruct (Nat.ltb_spec (64 * a + c - 64 * q) len); [lia|reflexivity]).
    + rewrite app_length, bits_of_length, El. reflexivity.
    + intros _. rewrite back_ptr_app, app_length. cbn. f_equal. lia.
  - destruct (Nat.eqb_spec p 0); [contradiction|]. unfold cur_word. rewrite (Hc Hp0). rewrite (get_nth (b_words b) q 0%N) by lia. cbn [bind].
    rewrite shl_ok by assumption. cbn [bind]. rewrite set_ok by lia. cbn [bind].
    set (w := N.lor (nth q (b_words b) 0%N) (wrap (N.shiftl x (N.of_nat p)))).
    assert (Hw : (w < W64)%N) by (apply lor_lt; [apply nth_word, Hr|apply wrap_lt]).
    assert (Hwb : forall c, c < 64 -> tb w c = if c <? p then nth (64 * q + c) l false else tb x (c - p)).
    { intros c Hc'. unfold w. rewrite tb_lor, tb_wrap, tb_shiftl, (repr_at _ l) by assumption.
      destruct (Nat.ltb_spec c 64); [|lia]. cbn [andb]. destruct (Nat.ltb_spec c p), (Nat.leb_spec p c); try lia.
      rewrite nth_overflow by lia. reflexivity. }
    destruct (Nat.ltb_spec (64 - p) len) as [Hover|Hfit].
    + rewrite shr_ok by lia. cbn [bind]. eexists; split; [reflexivity|]. split; cbn [b_words b_size b_cur].
      * apply repr_intro.
        -- apply words_app; [apply words_upd; [apply Hr|assumption]|]. constructor; [|constructor]. now apply shiftr_lt.
        -- rewrite !app_length, upd_length, bits_of_length, Ew, El. cbn [length].
           destruct (Nat.eq_dec (p + len) 128) as [E|].
           ++ lia.
           ++ replace (64 * q + p + len) with (64 * (q + 1) + (p + len - 64)) by lia. rewrite words_for_eq by lia.
              destruct (Nat.eqb_spec (p + len - 64) 0); lia.
        -- intros a c Hc'. rewrite !nth_app_if, upd_length, Ew, El, nth_bits_of, upd_nth, Ew.
           destruct (Nat.ltb_spec q (q + 1)); [|lia]. rewrite andb_true_r.
           destruct (Nat.ltb_spec a (q + 1)).
           ++ destruct (Nat.eqb_spec q a) as [<-|].
              ** rewrite Hwb by assumption. destruct (Nat.ltb_spec c p), (Nat.ltb_spec (64 * q + c) (64 * q + p)); try lia.
                 replace (64 * q + c - (64 * q + p)) with (c - p) by lia. destruct (Nat.ltb_spec (c - p) len); [reflexivity|lia].
              ** destruct (Nat.ltb_spec (64 * a + c) (64 * q + p)); [|lia]. now apply repr_at.
           ++ destruct (Nat.ltb_spec (64 * a + c) (64 * q + p)); [lia|].
              assert (a = q + 1 \/ q + 1 < a) as [->|Ha] by lia.
              ** rewrite Nat.sub_diag. cbn [nth]. rewrite tb_shiftr.
                 replace (64 * (q + 1) + c - (64 * q + p)) with (c + (64 - p)) by lia.
                 destruct (Nat.ltb_spec (c + (64 - p)) len); [reflexivity|]. now apply Hxb.
              ** destruct (a - (q + 1)) as [|[|k]] eqn:E; try lia; cbn [nth]; rewrite tb_of;
                 (destruct (Nat.ltb_spec (64 * a + c - (64 * q + p)) len); [lia|reflexivity]).
      * rewrite app_length, bits_of_length, El. reflexivity.
      * intros _. rewrite back_ptr_app, app_length. cbn. f_equal. lia.
    + cbn [bind]. eexists; split; [reflexivity|]. split; cbn [b_words b_size b_cur].
      * apply repr_intro.
        -- apply words_upd; [apply Hr|assumption].
        -- rewrite !app_length, upd_length, bits_of_length, Ew, El.
           destruct (Nat.eq_dec (p + len) 64) as [E|].
           ++ replace (64 * q + p + len) with (64 * (q + 1) + 0) by lia. now rewrite words_for_eq by lia.
           ++ replace (64 * q + p + len) with (64 * q + (p + len)) by lia. rewrite words_for_eq by lia. destruct (Nat.eqb_spec (p + len) 0); lia.
        -- intros a c Hc'. rewrite nth_app_if, El, nth_bits_of, upd_nth, Ew.
           destruct (Nat.ltb_spec q (q + 1)); [|lia]. rewrite andb_true_r.
           destruct (Nat.eqb_spec q a) as [<-|].
           ++ rewrite Hwb by assumption. destruct (Nat.ltb_spec c p), (Nat.ltb_spec (64 * q + c) (64 * q + p)); try lia.
              replace (64 * q + c - (64 * q + p)) with (c - p) by lia. destruct (Nat.ltb_spec (c - p) len); [reflexivity|]. apply Hxb. lia.
           ++ destruct (Nat.ltb_spec (64 * a + c) (64 * q + p)); [now apply repr_at|].
              rewrite nth_overflow by lia. rewrite tb_of. destruct (Nat.ltb_spec (64 * a + c - (64 * q + p)) len); [lia|reflexivity].
      * rewrite app_length, bits_of_length, El. reflexivity.
      * intros _. rewrite back_ptr_some by (intros E; apply (f_equal (@length N)) in E; rewrite upd_length in E; cbn in E; lia). reflexivity.
Qed.

(** ** Writing inside *)
Lemma mask_ones len : len < 64 -> wsub (wrap (N.shiftl 1 (N.of_nat len))) 1 = N.ones (N.of_nat len).
Proof.
  intros H. rewrite N.shiftl_1_l. assert (Hl : (2 ^ N.of_nat len < W64)%N) by (rewrite W64_pow; apply N.pow_lt_mono_r; lia).
  assert (H1 : (1 <= 2 ^ N.of_nat len)%N) by (pose proof (N.pow_nonzero 2 (N.of_nat len)); lia).
  rewrite wrap_small by assumption. unfold wsub, wrap.
  replace (2 ^ N.of_nat len + W64 - 1)%N with (2 ^ N.of_nat len - 1 + 1 * W64)%N by lia.
  rewrite N.mod_add by discriminate. rewrite N.mod_small by lia. rewrite N.ones_equiv. lia.
Qed.
Lemma ALL_ones : ALL = N.ones (N.of_nat 64).
Proof. reflexivity. Qed.
Lemma ones_lt len : len <= 64 -> (N.ones (N.of_nat len) < W64)%N.
Proof. intros H. apply word_iff. intros i Hi. rewrite tb_ones. destruct (Nat.ltb_spec i len); [lia|reflexivity]. Qed.

Lemma tb_masked w m s x p len i : i < 64 -> p < 64 -> m = wrap (N.shiftl (N.ones (N.of_nat len)) (N.of_nat p)) ->
  s = wrap (N.shiftl x (N.of_nat p)) -> (forall j, len <= j -> tb x j = false) ->
  tb (N.lor (N.land w (wnot m)) s) i = if (p <=? i) && (i <? p + len) then tb x (i - p) else tb w i.
Proof.
  intros Hi Hp -> -> Hx. rewrite tb_lor, tb_land, tb_wnot, !tb_wrap, !tb_shiftl, tb_ones.
  destruct (Nat.ltb_spec i 64); [|lia]. cbn [andb].
  destruct (Nat.leb_spec p i); cbn [andb negb].
  - destruct (Nat.ltb_spec (i - p) len), (Nat.ltb_spec i (p + len)); try (exfalso; lia); cbn [negb].
    + now destruct (tb w i).
    + rewrite Hx by lia. now destruct (tb w i).
  - now destruct (tb w i).
Qed.
Lemma tb_masked_hi w x len st i : i < 64 -> st < 64 -> (forall j, len <= j -> tb x j = false) ->
  tb (N.lor (N.land w (wnot (N.shiftr (N.ones (N.of_nat len)) (N.of_nat st)))) (N.shiftr x (N.of_nat st))) i =
  if i + st <? len then tb x (i + st) else tb w i.
Proof.
  intros Hi Hs Hx. rewrite tb_lor, tb_land, tb_wnot, !tb_shiftr, tb_ones. destruct (Nat.ltb_spec i 64); [|lia].
  destruct (Nat.ltb_spec (i + st) len); cbn [negb].
  - now destruct (tb w i).
  - rewrite Hx by lia. now destruct (tb w i).
Qed.

Lemma set_bits_words_ok ws pos x len : words ws -> len <= 64 -> (x < 2 ^ N.of_nat len)%N -> pos + len <= 64 * length ws ->
  exists ws', set_bits_words ws pos x len = Ok ws' /\ words ws' /\ length ws' = length ws /\
    forall i, bitat ws' i = if (pos <=? i) && (i <? pos + len) then tb x (i - pos) else bitat ws i.
Proof.
  intros Hw Hlen Hx Hfit. unfold set_bits_words. destruct (Nat.eqb_spec len 0) as [->|Hl0].
  { exists ws. repeat split; auto. intros i. destruct (Nat.leb_spec pos i), (Nat.ltb_spec i (pos + 0)); try (exfalso; lia); reflexivity. }
  assert (Em : (if len =? 64 then Ok ALL else do m <- shl 1 len; Ok (wsub m 1)) = Ok (N.ones (N.of_nat len))).
  { destruct (Nat.eqb_spec len 64) as [->|]; [reflexivity|]. rewrite shl_ok by lia. cbn [bind]. now rewrite mask_ones by lia. }
  rewrite Em. cbn [bind]. destruct (dm64 pos) as (q & p & Hp & ->). rewrite div64, mod64 by assumption.
  assert (Hq : q < length ws) by lia.
  rewrite (get_nth ws q 0%N) by assumption. cbn [bind]. rewrite !shl_ok by assumption. cbn [bind]. rewrite set_ok by assumption. cbn [bind].
  set (w1 := N.lor _ _). pose proof (below_tb len x Hx) as Hxb.
  assert (Hw1b : forall c, c < 64 -> tb w1 c = if (p <=? c) && (c <? p + len) then tb x (c - p) else tb (nth q ws 0%N) c).
  { intros c Hc. unfold w1. now apply (tb_masked _ _ _ x p len). }
  assert (Hw1 : (w1 < W64)%N) by (unfold w1; apply lor_lt; [apply land_lt, nth_word, Hw|apply wrap_lt]).
  clearbody w1.
  destruct (Nat.ltb_spec (64 - p) len) as [Hover|Hin].
  - assert (Hq1 : q + 1 < length ws) by lia.
    rewrite (get_nth _ (q + 1) 0%N) by (now rewrite upd_length). cbn [bind]. rewrite !shr_ok by lia. cbn [bind].
    rewrite set_ok by (now rewrite upd_length). eexists; split; [reflexivity|].
    set (w2 := N.lor _ _). assert (Hw2 : (w2 < W64)%N).
    { unfold w2. apply lor_lt; [apply land_lt; rewrite upd_nth; destruct (_ && _); [assumption|now apply nth_word]|].
      apply shiftr_lt. apply word_iff. intros i Hi. apply Hxb. lia. }
    assert (Hw2b : forall c, c < 64 -> tb w2 c = if c + (64 - p) <? len then tb x (c + (64 - p)) else tb (nth (q + 1) ws 0%N) c).
    { intros c Hc. unfold w2. rewrite tb_masked_hi by (assumption || lia). rewrite upd_nth. destruct (Nat.eqb_spec q (q + 1)); [lia|]. reflexivity. }
    clearbody w2. split; [|split].
    + now apply words_upd; [apply words_upd|].
    + now rewrite !upd_length.
    + intros i. destruct (dm64 i) as (a & c & Hc & ->). rewrite !bitat_eq by assumption. rewrite !upd_nth, upd_length.
      destruct (Nat.ltb_spec (q + 1) (length ws)), (Nat.ltb_spec q (length ws)); try (exfalso; lia). rewrite !andb_true_r.
      destruct (Nat.eqb_spec (q + 1) a) as [<-|].
      * rewrite Hw2b by assumption. destruct (Nat.leb_spec (64 * q + p) (64 * (q + 1) + c)); [|lia]. cbn [andb].
        destruct (Nat.ltb_spec (c + (64 - p)) len), (Nat.ltb_spec (64 * (q + 1) + c) (64 * q + p + len)); try (exfalso; lia); [f_equal; lia|reflexivity].
      * destruct (Nat.eqb_spec q a) as [<-|].
        -- rewrite Hw1b by assumption. destruct (Nat.leb_spec p c), (Nat.leb_spec (64 * q + p) (64 * q + c)); try (exfalso; lia); cbn [andb]; [|reflexivity].
           destruct (Nat.ltb_spec c (p + len)), (Nat.ltb_spec (64 * q + c) (64 * q + p + len)); try (exfalso; lia). f_equal. lia.
        -- destruct (Nat.leb_spec (64 * q + p) (64 * a + c)), (Nat.ltb_spec (64 * a + c) (64 * q + p + len)); try (exfalso; lia); reflexivity.
  - eexists; split; [reflexivity|]. split; [now apply words_upd|]. split; [apply upd_length|].
    intros i. destruct (dm64 i) as (a & c & Hc & ->). rewrite !bitat_eq by assumption. rewrite !upd_nth.
    destruct (Nat.ltb_spec q (length ws)); [|lia]. rewrite andb_true_r.
    destruct (Nat.eqb_spec q a) as [<-|].
    + rewrite Hw1b by assumption. destruct (Nat.leb_spec p c), (Nat.leb_spec (64 * q + p) (64 * q + c)); try (exfalso; lia); cbn [andb]; [|reflexivity].
      destruct (Nat.ltb_spec c (p + len)), (Nat.ltb_spec (64 * q + c) (64 * q + p + len)); try (exfalso; lia); [f_equal; lia|reflexivity].
    + destruct (Nat.leb_spec (64 * q + p) (64 * a + c)), (Nat.ltb_spec (64 * a + c) (64 * q + p + len)); try (exfalso; lia); reflexivity.
Qed.

(** Overwriting part of a list. *)
Lemma overwrite_length {A} (l m : list A) pos : pos + length m <= length l -> length (overwrite l pos m) = length l.
Proof. intros H. unfold overwrite. rewrite !app_length, firstn_length, skipn_length. lia. Qed.
Lemma overwrite_nth {A} (l m : list A) pos i d : pos + length m <= length l ->
  nth i (overwrite l pos m) d = if (pos <=? i) && (i <? pos + length m) then nth (i - pos) m d else nth i l d.
Proof.
  intros H. unfold overwrite. rewrite nth_app_if, firstn_length, nth_firstn_if, nth_app_if, nth_skipn'.
  rewrite (Nat.min_l pos) by lia.
  destruct (Nat.ltb_spec i pos), (Nat.leb_spec pos i); try (exfalso; lia); cbn [andb]; [reflexivity|].
  destruct (Nat.ltb_spec (i - pos) (length m)), (Nat.ltb_spec i (pos + length m)); try (exfalso; lia); [reflexivity|]. f_equal. lia.
Qed.

Lemma set_bits_ok b l pos x len : bvb_ok b l -> len <= 64 -> (x < 2 ^ N.of_nat len)%N -> pos + len <= length l ->
  exists b', bvb_set_bits b pos x len = Ok b' /\ bvb_ok b' (overwrite l pos (bits_of len x)).
Proof.
  intros [Hr Hs Hc] Hlen Hx Hfit. unfold bvb_set_bits.
  pose proof (words_for_bound (length l)) as [Hwf _]. rewrite <- (repr_len _ _ Hr) in Hwf.
  destruct (set_bits_words_ok (b_words b) pos x len) as (ws' & -> & Hw & Hl & Hb); [apply Hr|assumption|assumption|lia|].
  cbn [bind]. eexists; split; [reflexivity|].
  assert (Hol : length (overwrite l pos (bits_of len x)) = length l) by (apply overwrite_length; rewrite bits_of_length; lia).
  split; cbn [b_words b_size b_cur].
  - split; [assumption|now rewrite Hl, Hol, (repr_len _ _ Hr)|].
    intros i. rewrite Hb, overwrite_nth, bits_of_length, nth_bits_of, (repr_bits _ _ Hr) by (rewrite bits_of_length; lia).
    destruct (Nat.leb_spec pos i), (Nat.ltb_spec i (pos + len)); cbn [andb]; try reflexivity.
    destruct (Nat.ltb_spec (i - pos) len); [reflexivity|lia].
  - now rewrite Hol.
  - rewrite Hol, Hl. exact Hc.
Qed.

Lemma set_ok_bit b l pos v : bvb_ok b l -> pos < length l -> exists b', bvb_set b pos v = Ok b' /\ bvb_ok b' (upd l pos v).
Proof.
  intros [Hr Hs Hc] Hpos. unfold bvb_set.
  pose proof (words_for_bound (length l)) as [Hwf _]. rewrite <- (repr_len _ _ Hr) in Hwf.
  destruct (dm64 pos) as (q & p & Hp & ->). rewrite div64, mod64 by assumption. assert (Hq : q < length (b_words b)) by lia.
  rewrite (get_nth _ q 0%N) by assumption. cbn [bind]. rewrite !shl_ok by assumption. cbn [bind]. rewrite set_ok by assumption. cbn [bind].
  eexists; split; [reflexivity|]. split; cbn [b_words b_size b_cur].
  - apply repr_intro.
    + apply words_upd; [apply Hr|]. apply lor_lt; [apply land_lt, nth_word, Hr|apply wrap_lt].
    + rewrite !upd_length. apply Hr.
    + intros a c Hc'. rewrite !upd_nth. destruct (Nat.ltb_spec q (length (b_words b))), (Nat.ltb_spec (64 * q + p) (length l)); try (exfalso; lia). rewrite !andb_true_r.
      destruct (Nat.eqb_spec q a) as [<-|].
      * rewrite tb_lor, tb_land, tb_wnot, tb_bool by assumption.
        change (N.shiftl 1 (N.of_nat p)) with (N.shiftl (if true then 1%N else 0%N) (N.of_nat p)). rewrite tb_bool by assumption.
        destruct (Nat.ltb_spec c 64); [|lia]. rewrite (repr_at _ l) by assumption.
        destruct (Nat.eqb_spec (64 * q + p) (64 * q + c)), (Nat.eqb_spec c p) as [->|]; try (exfalso; lia); cbn [andb negb].
        -- now rewrite andb_false_r, andb_true_r.
        -- now rewrite andb_true_r, andb_false_r, orb_false_r.
      * destruct (Nat.eqb_spec (64 * q + p) (64 * a + c)); [lia|]. now apply repr_at.
  - now rewrite upd_length.
  - now rewrite !upd_length.
Qed.

(** ** The constructor *)
Lemma new_ok n v : exists b, bvb_new n v = Ok b /\ bvb_ok b (repeat v n).
Proof.
  unfold bvb_new. destruct (Nat.eqb_spec n 0) as [->|Hn].
  { eexists; split; [reflexivity|]. apply empty_ok. }
  destruct (dm64 n) as (q & p & Hp & ->). rewrite mod64 by assumption. rewrite repeat_length, words_for_eq by assumption.
  set (nw := if p =? 0 then q else q + 1). assert (Hnw : nw <> 0) by (unfold nw; destruct (Nat.eqb_spec p 0); lia).
  set (w0 := if v then ALL else 0%N). assert (Hw0 : (w0 < W64)%N) by (unfold w0; now destruct v).
  rewrite (get_nth _ _ 0%N) by (rewrite repeat_length; lia). cbn [bind].
  rewrite nth_repeat_if. destruct (Nat.ltb_spec (nw - 1) nw); [|lia].
  assert (Hsh : exists w, (if v && negb (p =? 0) then shr w0 (64 - p) else Ok w0) = Ok w /\ (w < W64)%N /\
            forall c, c < 64 -> tb w c = v && ((p =? 0) || (c <? p))).
  { destruct v; cbn [andb]; [|exists w0; repeat split; auto; intros; apply tb_of].
    destruct (Nat.eqb_spec p 0); cbn [negb orb].
    - exists w0. repeat split; auto. intros c Hc. unfold w0. rewrite ALL_ones, tb_ones. now apply Nat.ltb_lt.
    - rewrite shr_ok by lia. eexists; split; [reflexivity|]. split; [now apply shiftr_lt|].
      intros c Hc. unfold w0. rewrite ALL_ones, tb_shiftr, tb_ones. destruct (Nat.ltb_spec (c + (64 - p)) 64), (Nat.ltb_spec c p); try (exfalso; lia); reflexivity. }
  destruct Hsh as (w & -> & Hw & Hwb). cbn [bind]. rewrite set_ok by (rewrite repeat_length; lia). cbn [bind]. eexists; split; [reflexivity|].
  split; cbn [b_words b_size b_cur].
  - apply repr_intro.
    + apply words_upd; [now apply words_repeat|assumption].
    + rewrite upd_length, !repeat_length. now rewrite words_for_eq by assumption.
    + intros a c Hc. rewrite upd_nth, repeat_length, !nth_repeat_if. destruct (Nat.ltb_spec (nw - 1) nw); [|lia]. rewrite andb_true_r.
      destruct (Nat.eqb_spec (nw - 1) a) as [<-|].
      * rewrite Hwb by assumption. unfold nw in *. destruct (Nat.eqb_spec p 0) as [->|]; cbn [orb].
        -- destruct (Nat.ltb_spec (64 * (q - 1) + c) (64 * q + 0)); [now rewrite andb_true_r|lia].
        -- destruct (Nat.ltb_spec c p), (Nat.ltb_spec (64 * (q + 1 - 1) + c) (64 * q + p)); try (exfalso; lia); [now rewrite andb_true_r|now rewrite andb_false_r].
      * assert (Hif : a < nw \/ nw <= a) by lia. destruct Hif as [Ha|Ha].
        -- destruct (Nat.ltb_spec a nw); [|lia]. destruct (Nat.ltb_spec (64 * a + c) (64 * q + p)).
           ++ unfold w0. destruct v; [|apply tb_of]. rewrite ALL_ones, tb_ones. now apply Nat.ltb_lt.
           ++ exfalso. unfold nw in *. destruct (Nat.eqb_spec p 0); lia.
        -- destruct (Nat.ltb_spec a nw); [lia|]. rewrite tb_of. destruct (Nat.ltb_spec (64 * a + c) (64 * q + p)); [|reflexivity].
           exfalso. unfold nw in *. destruct (Nat.eqb_spec p 0); lia.
  - now rewrite repeat_length.
  - intros _. rewrite back_ptr_some by (intros E; apply (f_equal (@length N)) in E; rewrite upd_length, repeat_length in E; cbn in E; lia). reflexivity.
Qed.

(** ** Reversing *)
(** The words shifted by s bits to the left. *)
Lemma reverse_words_ok s : forall ws r, 1 <= s <= 64 -> words ws -> (r < W64)%N -> (forall c, s <= c -> tb r c = false) ->
  exists vs, reverse_words ws s r = Ok (map reverse_bits vs) /\ words vs /\ length vs = length ws /\
    forall i, i < 64 * length ws -> bitat vs i = if s =? 64 then bitat ws i else if i <? s then tb r i else bitat ws (i - s).
Proof.
  induction ws as [|w ws IH]; intros r Hs Hw Hr Hrb.
  { exists []. repeat split; auto. cbn. lia. }
  inversion Hw as [|? ? Hw0 Hws]; subst. cbn [reverse_words].
  destruct (Nat.eqb_spec s 64) as [->|Hs64]; cbn [negb].
  - cbn [bind]. destruct (IH r Hs Hws Hr Hrb) as (vs & -> & Hvs & Hl & Hb). cbn [bind].
    exists (w :: vs). split; [reflexivity|]. split; [now constructor|]. split; [cbn; now rewrite Hl|].
    intros i Hi. destruct (dm64 i) as (a & c & Hc & ->). rewrite !bitat_eq by assumption. destruct a as [|a]; [reflexivity|].
    cbn [nth]. rewrite <- !bitat_eq by assumption. rewrite Hb by (cbn in Hi; lia). reflexivity.
  - rewrite shl_ok, shr_ok by lia. cbn [bind].
    destruct (IH (N.shiftr w (N.of_nat (64 - s))) Hs Hws) as (vs & -> & Hvs & Hl & Hb).
    { now apply shiftr_lt. }
    { intros c Hc. rewrite tb_shiftr. apply tb_high; [assumption|lia]. }
    cbn [bind]. eexists (_ :: vs). split; [reflexivity|]. split; [constructor; [apply lor_lt; [assumption|apply wrap_lt]|assumption]|].
    split; [cbn; now rewrite Hl|]. intros i Hi. destruct (dm64 i) as (a & c & Hc & ->). rewrite bitat_eq by assumption. destruct a as [|a].
    + cbn [nth]. rewrite tb_lor, tb_wrap, tb_shiftl. replace (64 * 0 + c) with c by lia. destruct (Nat.ltb_spec c 64); [|lia]. cbn [andb].
      destruct (Nat.ltb_spec c s), (Nat.leb_spec s c); try (exfalso; lia); cbn [andb].
      * now rewrite orb_false_r.
      * rewrite Hrb by assumption. cbn [orb]. change (tb w (c - s)) with (tb (nth 0 (w :: ws) 0%N) (c - s)).
        replace (c - s) with (64 * 0 + (c - s)) at 2 by lia. now rewrite bitat_eq by lia.
    + cbn [nth]. rewrite <- bitat_eq by assumption. rewrite Hb by (cbn in Hi; lia). destruct (Nat.eqb_spec s 64); [lia|].
      destruct (Nat.ltb_spec (64 * S a + c) s); [lia|].
      destruct (Nat.ltb_spec (64 * a + c) s).
      * assert (a = 0) by lia. subst a. rewrite tb_shiftr. replace (64 * 1 + c - s) with (64 * 0 + (c + (64 - s))) by lia.
        rewrite bitat_eq by lia. cbn [nth]. f_equal; lia.
      * replace (64 * S a + c - s) with (64 + (64 * a + c - s)) by lia. unfold bitat.
        replace (64 + (64 * a + c - s)) with (64 * a + c - s + 1 * 64) by lia. rewrite Nat.div_add, Nat.mod_add by lia. rewrite Nat.add_1_r. reflexivity.
Qed.

Lemma nth_rev_if {A} (l : list A) i d : nth i (rev l) d = if i <? length l then nth (length l - S i) l d else d.
Proof. destruct (Nat.ltb_spec i (length l)); [now apply rev_nth|]. apply nth_overflow. now rewrite rev_length. Qed.

Lemma reverse_ok b l : bvb_ok b l -> exists b', bvb_reverse b = Ok b' /\ bvb_ok b' (rev l).
Proof.
  intros H. destruct (ok_lengths b l H) as (q & p & Hp & El & Es & Ew & Hc). pose proof (bo_cur _ _ H) as Hcur. destruct H as [Hr _ _].
  unfold bvb_reverse. rewrite Es, mod64 by assumption.
  destruct (reverse_words_ok (64 - p) (b_words b) 0%N) as (vs & -> & Hvs & Hl & Hb); [lia|apply Hr|reflexivity|intros; apply tb_of|].
  cbn [bind]. eexists; split; [reflexivity|]. split; cbn [b_words b_size b_cur].
  - apply repr_intro.
    + apply Forall_rev. apply Forall_forall. intros x Hx. apply in_map_iff in Hx as (y & <- & Hy). apply reverse_bits_lt.
      exact (proj1 (Forall_forall _ _) Hvs y Hy).
    + rewrite rev_length, map_length, rev_length, Hl. apply Hr.
    + intros a c Hc'. rewrite !nth_rev_if, map_length, Hl.
      destruct (Nat.ltb_spec a (length (b_words b))).
      * rewrite (nth_indep _ 0%N (reverse_bits 0%N)) by (rewrite map_length; lia). rewrite map_nth.
        rewrite reverse_bits_ok by (try assumption; now apply nth_word). rewrite <- bitat_eq by lia. rewrite Hb by lia.
        rewrite !(repr_bits _ _ Hr). rewrite El.
        destruct (Nat.eqb_spec (64 - p) 64) as [E|E], (Nat.eqb_spec p 0) as [Ep|Ep]; try (exfalso; lia).
        -- destruct (Nat.ltb_spec (64 * a + c) (64 * q + p)); [f_equal; lia|]. exfalso. lia.
        -- rewrite tb_of. destruct (Nat.ltb_spec (64 * (length (b_words b) - S a) + (63 - c)) (64 - p)), (Nat.ltb_spec (64 * a + c) (64 * q + p)); try (exfalso; lia); [reflexivity|].
           f_equal. lia.
      * rewrite tb_of. destruct (Nat.ltb_spec (64 * a + c) (length l)); [|reflexivity]. exfalso. destruct (Nat.eqb_spec p 0); lia.
  - rewrite rev_length. lia.
  - rewrite !rev_length, map_length, Hl. exact Hcur.
Qed.
