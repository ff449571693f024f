(** The two iterators over bit vectors. *)
From Verif Require Import Base M_Word S_Bits P_Word M_Bits P_Bits P_Rank P_BitsRead.
Local Open Scope nat_scope.

(** ** unary_iterator: the ones at positions from q on remain *)
Definition from_ (ws : list N) (q j : nat) : bool := (q <=? j) && bitat ws j.
Definition ui_ok (ws : list N) (u : uiter) (q : nat) : Prop :=
  (u_buf u < W64)%N /\ forall c, c < 64 -> tb (u_buf u) c = from_ ws q (64 * (u_pos u / 64) + c).

Lemma from_true ws q j : from_ ws q j = true -> q <= j /\ bitat ws j = true.
Proof. unfold from_. intros H. apply andb_true_iff in H as [H H']. now apply Nat.leb_le in H. Qed.
Lemma from_intro ws q j : q <= j -> bitat ws j = true -> from_ ws q j = true.
Proof. unfold from_. intros H ->. apply Nat.leb_le in H. now rewrite H. Qed.
Lemma bitat_in ws j : bitat ws j = true -> j < 64 * length ws.
Proof. intros H. destruct (Nat.lt_ge_cases j (64 * length ws)); [assumption|]. rewrite bitat_high in H by assumption. discriminate. Qed.

Lemma ui_new_ok ws pos : words ws -> pos < 64 * length ws -> exists u, ui_new ws pos = Ok u /\ u_pos u = pos /\ ui_ok ws u pos.
Proof.
  intros Hw Hp. unfold ui_new. rewrite (get_nth ws _ 0%N) by (apply Nat.div_lt_upper_bound; lia). cbn [bind].
  rewrite shl_ok by (apply Nat.mod_upper_bound; lia). cbn [bind]. eexists; split; [reflexivity|]. split; [reflexivity|].
  split; cbn [u_buf u_pos]; [now apply land_lt, nth_word|]. intros c Hc. unfold from_. rewrite bitat_eq by assumption.
  rewrite tb_land, tb_wrap, tb_shiftl, ALL_ones, tb_ones. destruct (Nat.ltb_spec c 64); [|lia]. cbn [andb].
  pose proof (Nat.div_mod pos 64 ltac:(lia)) as E. rewrite andb_comm. f_equal.
  destruct (Nat.leb_spec (pos mod 64) c), (Nat.leb_spec pos (64 * (pos / 64) + c)); cbn [andb]; try (exfalso; lia); [|reflexivity].
  destruct (Nat.ltb_spec (c - pos mod 64) 64); [reflexivity|lia].
Qed.

Lemma wsub_1 b : (0 < b < W64)%N -> wsub b 1 = (b - 1)%N.
Proof. intros H. unfold wsub, wrap. replace (b + W64 - 1)%N with (b - 1 + 1 * W64)%N by lia. rewrite N.mod_add by discriminate. apply N.mod_small. lia. Qed.
(** b & (b - 1) clears the lowest one. *)
Lemma clear_lowest b i : (0 < b < W64)%N -> tb b i = true -> (forall j, j < i -> tb b j = false) ->
  forall c, tb (N.land b (wsub b 1)) c = negb (c =? i) && tb b c.
Proof.
  intros Hb Hi Hlow c. rewrite wsub_1 by assumption.
  assert (E : exists h, b = (2 ^ N.of_nat i + 2 ^ N.of_nat (S i) * h)%N).
  { exists (N.shiftr b (N.of_nat (S i))). rewrite N.shiftr_div_pow2. rewrite Nat2N.inj_succ, N.pow_succ_r'.
    assert (Hr : (b mod (2 * 2 ^ N.of_nat i) = 2 ^ N.of_nat i)%N).
    { rewrite <- N.pow_succ_r', <- Nat2N.inj_succ. apply tb_ext. intros j. rewrite tb_mod_pow. unfold tb at 2. rewrite N.pow2_bits_eqb.
      destruct (Nat.ltb_spec j (S i)); cbn [andb].
      - destruct (Nat.eq_dec j i) as [->|]; [rewrite N.eqb_refl; assumption|]. rewrite Hlow by lia. symmetry. apply N.eqb_neq. lia.
      - symmetry. apply N.eqb_neq. lia. }
    rewrite <- Hr at 1. rewrite N.add_comm. apply N.div_mod. pose proof (N.pow_nonzero 2 (N.of_nat i)). lia. }
  destruct E as (h & ->).
  assert (Hsub : (2 ^ N.of_nat i + 2 ^ N.of_nat (S i) * h - 1 = N.ones (N.of_nat i) + 2 ^ N.of_nat (S i) * h)%N).
  { rewrite N.ones_equiv. pose proof (N.pow_nonzero 2 (N.of_nat i)). lia. }
  assert (Hbit : forall a, (a < 2 ^ N.of_nat (S i))%N -> forall c, tb (a + 2 ^ N.of_nat (S i) * h) c = if c <? S i then tb a c else tb h (c - S i)).
  { intros a Ha c'. destruct (Nat.ltb_spec c' (S i)).
    - transitivity (tb ((a + 2 ^ N.of_nat (S i) * h) mod 2 ^ N.of_nat (S i))%N c').
      + rewrite tb_mod_pow. destruct (Nat.ltb_spec c' (S i)); [reflexivity|lia].
      + f_equal. rewrite N.mul_comm, N.mod_add by (now apply N.pow_nonzero). now apply N.mod_small.
    - transitivity (tb (N.shiftr (a + 2 ^ N.of_nat (S i) * h) (N.of_nat (S i))) (c' - S i)).
      + rewrite tb_shiftr. f_equal. lia.
      + f_equal. rewrite N.shiftr_div_pow2. rewrite N.mul_comm, N.div_add by (now apply N.pow_nonzero). rewrite N.div_small by assumption. reflexivity. }
  rewrite Hsub, tb_land, !Hbit.
  - destruct (Nat.ltb_spec c (S i)).
    + rewrite tb_ones. unfold tb. rewrite N.pow2_bits_eqb. destruct (Nat.eqb_spec c i) as [->|].
      * rewrite Nat.ltb_irrefl. now rewrite andb_false_r.
      * replace (N.of_nat i =? N.of_nat c)%N with false by (symmetry; apply N.eqb_neq; lia). reflexivity.
    + destruct (Nat.eqb_spec c i); [lia|]. cbn [negb andb]. now destruct (tb h (c - S i)).
  - rewrite N.ones_equiv. rewrite Nat2N.inj_succ, N.pow_succ_r'. pose proof (N.pow_nonzero 2 (N.of_nat i)). lia.
  - rewrite Nat2N.inj_succ, N.pow_succ_r'. pose proof (N.pow_nonzero 2 (N.of_nat i)). lia.
Qed.

Lemma word_nonzero b : (b < W64)%N -> b <> 0%N -> exists c, c < 64 /\ tb b c = true.
Proof.
  intros Hb H0. destruct (ctz_ok b H0) as (i & _ & Hi & _). exists i. split; [|assumption].
  destruct (Nat.lt_ge_cases i 64); [assumption|]. rewrite tb_high in Hi by assumption. discriminate.
Qed.
Lemma div64_add pos : (pos + 64) / 64 = pos / 64 + 1.
Proof. replace (pos + 64) with (pos + 1 * 64) by lia. now rewrite Nat.div_add. Qed.
Lemma tb_find b i : tb b i = true -> b <> 0%N.
Proof. intros H ->. rewrite tb_of in H. discriminate. Qed.

(** next: the least one from q on. *)
Lemma ui_next_ok ws u q p fuel : words ws -> ui_ok ws u q -> q <= 64 * (u_pos u / 64 + 1) -> 64 * (u_pos u / 64) <= p ->
  q <= p -> bitat ws p = true -> (forall j, q <= j < p -> bitat ws j = false) -> p / 64 - u_pos u / 64 < fuel ->
  exists u', ui_next ws fuel u = Ok (p, u') /\ u_pos u' = p /\ ui_ok ws u' (p + 1).
Proof.
  intros Hw [Hbl Hb] Hq Hblk Hqp Hp Hgap Hf. unfold ui_next. pose proof (bitat_in _ _ Hp) as Hpin.
  destruct (loop_ok_n (ui_next_step ws)
    (fun n '(pos, buf) => n = p / 64 - pos / 64 /\ (buf < W64)%N /\ u_pos u / 64 <= pos / 64 <= p / 64 /\
       forall c, c < 64 -> tb buf c = from_ ws q (64 * (pos / 64) + c))
    (fun r => fst r = p /\ u_pos (snd r) = p /\ ui_ok ws (snd r) (p + 1))) with (fuel := fuel) (n := p / 64 - u_pos u / 64) (s := (u_pos u, u_buf u))
    as ([r u'] & -> & (E1 & E2 & E3)); [| |assumption|].
  - intros n [pos buf] (-> & Hl & Hle & Hbits). unfold ui_next_step.
    pose proof (Nat.div_mod p 64 ltac:(lia)) as Ep. pose proof (Nat.mod_upper_bound p 64 ltac:(lia)) as Hpm.
    destruct (N.eqb_spec buf 0) as [->|H0].
    + cbn [lsb2 N.eqb bind]. assert (Hlt : pos / 64 < p / 64).
      { destruct (Nat.eq_dec (pos / 64) (p / 64)) as [E|]; [|lia]. specialize (Hbits (p mod 64) Hpm). rewrite E, <- Ep, tb_of in Hbits.
        rewrite from_intro in Hbits by assumption. discriminate. }
      rewrite div64_add. rewrite (get_nth ws _ 0%N) by lia. cbn [bind].
      exists (p / 64 - (pos + 64) / 64). rewrite div64_add. split; [lia|]. split; [reflexivity|]. split; [now apply nth_word|]. split; [lia|].
      intros c Hc. unfold from_. rewrite bitat_eq by assumption. destruct (Nat.leb_spec q (64 * (pos / 64 + 1) + c)) as [_|L]; [reflexivity|]. lia.
    + destruct (lsb2_ok buf H0) as (i & -> & Hi & Hlow). cbn [bind fst snd u_pos].
      assert (Hi64 : i < 64) by (destruct (Nat.lt_ge_cases i 64); [assumption|]; rewrite tb_high in Hi by assumption; discriminate).
      pose proof (Hbits i Hi64) as Ei. rewrite Hi in Ei. symmetry in Ei. apply from_true in Ei as [Ei1 Ei2].
      assert (Epi : word_start pos + i = p).
      { unfold word_start. destruct (Nat.lt_trichotomy (64 * (pos / 64) + i) p) as [L|[L|L]]; [|assumption|].
        - rewrite Hgap in Ei2 by lia. discriminate.
        - exfalso. assert (pos / 64 = p / 64) as E by lia. rewrite E in *.
          assert (tb buf (p mod 64) = false) as T by (apply Hlow; lia). rewrite Hbits, <- Ep in T by assumption.
          rewrite from_intro in T by assumption. discriminate. }
      rewrite Epi. split; [reflexivity|]. split; [reflexivity|]. split; cbn [u_buf u_pos]; [now apply land_lt|].
      intros c Hc. rewrite (clear_lowest buf i) by (assumption || lia). rewrite Hbits by assumption.
      assert (E : pos / 64 = p / 64) by (rewrite <- Epi; unfold word_start; now rewrite div64). rewrite <- E.
      unfold from_, word_start in *. destruct (Nat.eqb_spec c i) as [->|]; cbn [negb andb].
      * rewrite Epi. destruct (Nat.leb_spec (p + 1) p); [lia|reflexivity].
      * destruct (Nat.leb_spec q (64 * (pos / 64) + c)), (Nat.leb_spec (p + 1) (64 * (pos / 64) + c)); cbn [andb]; try reflexivity; try (exfalso; lia).
        apply Hgap. lia.
  - split; [reflexivity|]. split; [assumption|]. split; [split; [lia|apply Nat.div_le_lower_bound; lia]|assumption].
  - cbn [fst snd] in *. subst r. exists u'. auto.
Qed.

Lemma tb_from i c : i < 64 -> c < 64 -> tb (wrap (N.shiftl ALL (N.of_nat i))) c = (i <=? c).
Proof.
  intros Hi Hc. rewrite tb_wrap, tb_shiftl, ALL_ones, tb_ones. destruct (Nat.ltb_spec c 64), (Nat.leb_spec i c); try (exfalso; lia); cbn [andb]; [|reflexivity].
  destruct (Nat.ltb_spec (c - i) 64); [reflexivity|lia].
Qed.
Lemma cnt_word (g : nat -> bool) b B : (b < W64)%N -> (forall c, c < 64 -> tb b c = g (64 * B + c)) ->
  cnt g (64 * B) + popcount b = cnt g (64 * (B + 1)) /\ forall i, i <= 64 -> cnt (tb b) i = cnt g (64 * B + i) - cnt g (64 * B).
Proof.
  intros Hb H. assert (Hi : forall i, i <= 64 -> cnt (tb b) i = cnt (fun x => g (64 * B + x)) i) by (intros i Hi; apply cnt_ext; intros; apply H; lia).
  split.
  - rewrite popcount_cnt, Hi by (assumption || lia). replace (64 * (B + 1)) with (64 * B + 64) by lia. now rewrite cnt_app.
  - intros i Hi'. rewrite Hi, cnt_app by assumption. lia.
Qed.
Lemma select_word g b B k p : (b < W64)%N -> (forall c, c < 64 -> tb b c = g (64 * B + c)) -> 64 * B <= p < 64 * (B + 1) -> g p = true -> cnt g p = k ->
  select_in_word b (k - cnt g (64 * B)) = Ok (p - 64 * B).
Proof.
  intros Hb H Hp Hg Hk. destruct (cnt_word g b B Hb H) as [Hc Hi].
  pose proof (cnt_mono g (64 * B) p ltac:(lia)) as M1. pose proof (cnt_lt g p (64 * (B + 1)) ltac:(lia) Hg) as M2.
  destruct (select_in_word_cnt b (k - cnt g (64 * B)) Hb) as (i & E & Hi64 & Hib & Hic).
  { rewrite Hi by lia. replace (64 * B + 64) with (64 * (B + 1)) by lia. lia. }
  rewrite E. f_equal. rewrite H in Hib by assumption. rewrite Hi in Hic by lia.
  pose proof (cnt_mono g (64 * B) (64 * B + i) ltac:(lia)). pose proof (cnt_inj g (64 * B + i) p Hib Hg). lia.
Qed.

(** skip: the k-th one from q on. *)
Lemma ui_skip_ok ws u q k p fuel : words ws -> ui_ok ws u q -> 64 * (u_pos u / 64) <= q <= 64 * (u_pos u / 64 + 1) ->
  from_ ws q p = true -> cnt (from_ ws q) p = k -> p / 64 - u_pos u / 64 < fuel ->
  exists u', ui_skip ws fuel u k = Ok u' /\ u_pos u' = p /\ ui_ok ws u' p.
Proof.
  intros Hw [Hbl Hb] Hq Hp Hk Hf. unfold ui_skip. set (g := from_ ws q) in *.
  assert (Hpin : p < 64 * length ws) by (apply bitat_in; now apply from_true in Hp).
  assert (Hqp : q <= p) by (now apply from_true in Hp).
  pose proof (Nat.div_mod p 64 ltac:(lia)) as Ep. pose proof (Nat.mod_upper_bound p 64 ltac:(lia)) as Hpm.
  destruct (loop_ok_n (ui_skip_step ws k)
    (fun n '(skipped, pos, buf) => n = p / 64 - pos / 64 /\ (buf < W64)%N /\ u_pos u / 64 <= pos / 64 <= p / 64 /\ skipped = cnt g (64 * (pos / 64)) /\
       forall c, c < 64 -> tb buf c = g (64 * (pos / 64) + c))
    (fun u' => u_pos u' = p /\ ui_ok ws u' p)) with (fuel := fuel) (n := p / 64 - u_pos u / 64) (s := (0, u_pos u, u_buf u))
    as (u' & -> & Hu); [| |assumption|now exists u'].
  - intros n [[skipped pos] buf] (-> & Hl & Hle & -> & Hbits). unfold ui_skip_step.
    destruct (cnt_word g buf (pos / 64) Hl Hbits) as [Hc Hi]. rewrite Hc.
    destruct (Nat.leb_spec (cnt g (64 * (pos / 64 + 1))) k) as [L|L].
    + pose proof (cnt_below g p _ k Hp Hk L) as Hlt. rewrite div64_add. rewrite (get_nth ws _ 0%N) by lia. cbn [bind].
      exists (p / 64 - (pos + 64) / 64). rewrite div64_add. split; [lia|]. split; [reflexivity|]. split; [now apply nth_word|]. split; [lia|]. split; [reflexivity|].
      intros c Hc'. unfold g, from_. rewrite bitat_eq by assumption. destruct (Nat.leb_spec q (64 * (pos / 64 + 1) + c)) as [_|?]; [reflexivity|lia].
    + pose proof (cnt_above g p _ k Hp Hk L) as Hlt.
      rewrite (select_word g buf (pos / 64) k p) by (assumption || lia). cbn [bind]. rewrite shl_ok by lia. cbn [bind u_pos].
      split; [unfold word_start; lia|]. split; cbn [u_buf u_pos]; [now apply land_lt|].
      intros c Hc'. unfold word_start. replace (64 * (pos / 64) + (p - 64 * (pos / 64))) with p by lia.
      replace (p / 64) with (pos / 64) by lia. rewrite tb_land, tb_from, Hbits by lia. unfold g, from_.
      destruct (Nat.leb_spec q (64 * (pos / 64) + c)), (Nat.leb_spec p (64 * (pos / 64) + c)), (Nat.leb_spec (p - 64 * (pos / 64)) c); cbn [andb]; try (exfalso; lia); try reflexivity.
      * now rewrite andb_true_r.
      * now rewrite andb_false_r.
  - split; [reflexivity|]. split; [assumption|]. split; [split; [lia|apply Nat.div_le_lower_bound; lia]|]. split; [|assumption].
    symmetry. apply cnt_zero. intros j Hj. unfold g, from_. destruct (Nat.leb_spec q j); [lia|reflexivity].
Qed.

(** skip0: the k-th position from the current one on that is not a remaining one. *)
Definition gap_ (ws : list N) (pos q j : nat) : bool := (pos <=? j) && negb (from_ ws q j).
Lemma ui_skip0_ok ws u q k p fuel : words ws -> ui_ok ws u q -> q <= u_pos u + 1 -> p < 64 * length ws ->
  gap_ ws (u_pos u) q p = true -> cnt (gap_ ws (u_pos u) q) p = k -> p / 64 - u_pos u / 64 < fuel ->
  exists u', ui_skip0 ws fuel u k = Ok u' /\ u_pos u' = p /\ ui_ok ws u' (p + 1).
Proof.
  intros Hw [Hbl Hb] Hq Hpin Hp Hk Hf. unfold ui_skip0. set (g := gap_ ws (u_pos u) q) in *.
  pose proof (Nat.div_mod p 64 ltac:(lia)) as Ep. pose proof (Nat.mod_upper_bound p 64 ltac:(lia)) as Hpm.
  pose proof (Nat.div_mod (u_pos u) 64 ltac:(lia)) as Eu. pose proof (Nat.mod_upper_bound (u_pos u) 64 ltac:(lia)) as Hum.
  assert (Hup : u_pos u <= p) by (apply andb_true_iff in Hp as [Hp _]; now apply Nat.leb_le).
  rewrite shl_ok by assumption. cbn [bind].
  destruct (loop_ok_n (ui_skip0_step ws k)
    (fun n '(skipped, pos, buf) => n = p / 64 - pos / 64 /\ (buf < W64)%N /\ u_pos u / 64 <= pos / 64 <= p / 64 /\ skipped = cnt g (64 * (pos / 64)) /\
       forall c, c < 64 -> tb buf c = g (64 * (pos / 64) + c))
    (fun u' => u_pos u' = p /\ ui_ok ws u' (p + 1))) with (fuel := fuel) (n := p / 64 - u_pos u / 64)
       (s := (0, u_pos u, N.land (wnot (u_buf u)) (wrap (N.shiftl ALL (N.of_nat (u_pos u mod 64))))))
    as (u' & -> & Hu); [| |assumption|now exists u'].
  - intros n [[skipped pos] buf] (-> & Hl & Hle & -> & Hbits). unfold ui_skip0_step.
    destruct (cnt_word g buf (pos / 64) Hl Hbits) as [Hc Hi]. rewrite Hc.
    destruct (Nat.leb_spec (cnt g (64 * (pos / 64 + 1))) k) as [L|L].
    + pose proof (cnt_below g p _ k Hp Hk L) as Hlt. rewrite div64_add. rewrite (get_nth ws _ 0%N) by lia. cbn [bind].
      exists (p / 64 - (pos + 64) / 64). rewrite div64_add. split; [lia|]. split; [reflexivity|]. split; [now apply wnot_lt, nth_word|]. split; [lia|]. split; [reflexivity|].
      intros c Hc'. unfold g, gap_, from_. rewrite bitat_eq, tb_wnot by assumption. destruct (Nat.ltb_spec c 64); [|lia].
      destruct (Nat.leb_spec (u_pos u) (64 * (pos / 64 + 1) + c)) as [_|?]; [|lia].
      destruct (Nat.leb_spec q (64 * (pos / 64 + 1) + c)) as [_|?]; [|lia]. reflexivity.
    + pose proof (cnt_above g p _ k Hp Hk L) as Hlt.
      rewrite (select_word g buf (pos / 64) k p) by (assumption || lia). cbn [bind]. rewrite shl_ok by lia. cbn [bind u_pos].
      split; [unfold word_start; lia|]. split; cbn [u_buf u_pos]; [now apply land_lt, wnot_lt|].
      intros c Hc'. unfold word_start. replace (64 * (pos / 64) + (p - 64 * (pos / 64))) with p by lia.
      replace (p / 64) with (pos / 64) by lia. rewrite tb_land, tb_from, tb_wnot, Hbits by lia. destruct (Nat.ltb_spec c 64); [|lia].
      destruct (Nat.leb_spec (p - 64 * (pos / 64)) c).
      * rewrite andb_true_r. destruct (Nat.eq_dec (64 * (pos / 64) + c) p) as [E|E].
        -- rewrite E, Hp. unfold from_. destruct (Nat.leb_spec (p + 1) p); [lia|reflexivity].
        -- unfold g, gap_, from_. destruct (Nat.leb_spec (u_pos u) (64 * (pos / 64) + c)), (Nat.leb_spec q (64 * (pos / 64) + c)), (Nat.leb_spec (p + 1) (64 * (pos / 64) + c)); try (exfalso; lia).
           cbn [andb]. now rewrite negb_involutive.
      * rewrite andb_false_r. unfold from_. destruct (Nat.leb_spec (p + 1) (64 * (pos / 64) + c)); [lia|reflexivity].
  - split; [reflexivity|]. split; [now apply land_lt, wnot_lt|]. split; [split; [lia|apply Nat.div_le_mono; lia]|]. split.
    + symmetry. apply cnt_zero. intros j Hj. unfold g, gap_. destruct (Nat.leb_spec (u_pos u) j); [lia|reflexivity].
    + intros c Hc. rewrite tb_land, tb_from, tb_wnot, Hb by assumption. destruct (Nat.ltb_spec c 64); [|lia].
      unfold g, gap_. rewrite andb_comm. f_equal.
      destruct (Nat.leb_spec (u_pos u mod 64) c), (Nat.leb_spec (u_pos u) (64 * (u_pos u / 64) + c)); try (exfalso; lia); reflexivity.
Qed.

(** ** bits_iterator *)
(** The buffer holds the next bits; clean: and nothing else. *)
Definition bi_ok (ws : list N) (it : biter) : Prop :=
  (bi_buf it < W64)%N /\ (bi_avail it <= 64)%N /\ forall i, i < N.to_nat (bi_avail it) -> tb (bi_buf it) i = bitat ws (bi_pos it + i).
Definition bi_clean (it : biter) : Prop := forall i, N.to_nat (bi_avail it) <= i -> tb (bi_buf it) i = false.

Lemma bi_new_ok ws pos : bi_ok ws (bi_new pos) /\ bi_clean (bi_new pos).
Proof. split; [split; [reflexivity|]; split; [cbn; lia|]; cbn; lia|]. intros i _. apply tb_of. Qed.
Lemma bi_fill_ok ws it : words ws -> bi_pos it < 64 * length ws ->
  exists it', bi_fill ws it = Ok it' /\ bi_pos it' = bi_pos it /\ bi_avail it' = 64%N /\ bi_ok ws it' /\ bi_clean it'.
Proof.
  intros Hw Hp. unfold bi_fill. destruct (get_word64_ok ws (bi_pos it) Hw Hp) as (r & -> & Hr). cbn [bind].
  eexists; split; [reflexivity|]. split; [reflexivity|]. split; [reflexivity|]. split.
  - split; cbn [bi_buf bi_avail bi_pos]; [rewrite W64_pow; exact (field_lt _ _ _ _ Hr)|]. split; [lia|]. intros i Hi. rewrite Hr.
    destruct (Nat.ltb_spec i 64); [reflexivity|]. change (N.to_nat 64) with 64 in Hi. lia.
  - intros i Hi. cbn [bi_buf bi_avail] in *. rewrite Hr. destruct (Nat.ltb_spec i 64); [|reflexivity]. change (N.to_nat 64) with 64 in Hi. lia.
Qed.

Lemma wsub_le a b : (b <= a < W64)%N -> wsub a b = (a - b)%N.
Proof. intros H. unfold wsub, wrap. replace (a + W64 - b)%N with (a - b + 1 * W64)%N by lia. rewrite N.mod_add by discriminate. apply N.mod_small. lia. Qed.

Lemma bi_get_bits_ok ws it len : words ws -> bi_ok ws it -> len <= 64 -> bi_pos it + len <= 64 * length ws ->
  exists r it', bi_get_bits ws it len = Ok (r, it') /\ field ws (bi_pos it) len r /\ bi_pos it' = bi_pos it + len /\ bi_ok ws it' /\
    (len < 64 -> bi_clean it -> bi_clean it').
Proof.
  intros Hw Hok Hlen Hfit. unfold bi_get_bits.
  assert (Hfill : exists it1, (if (bi_avail it <? N.of_nat len)%N then bi_fill ws it else Ok it) = Ok it1 /\ bi_pos it1 = bi_pos it /\
     (N.of_nat len <= bi_avail it1)%N /\ bi_ok ws it1 /\ (bi_clean it -> bi_clean it1)).
  { destruct (N.ltb_spec (bi_avail it) (N.of_nat len)).
    - destruct (bi_fill_ok ws it Hw) as (it1 & -> & E1 & E2 & E3 & E4); [lia|]. exists it1. repeat split; auto; try apply E3. rewrite E2. lia.
    - exists it. repeat split; auto; apply Hok. }
  destruct Hfill as (it1 & -> & Ep & Ha & (Hb1 & Ha1 & Hbits) & Hcl). cbn [bind]. rewrite <- Ep in *. clear Ep Hok.
  assert (HaW : (bi_avail it1 < W64)%N) by (unfold W64; lia).
  destruct (Nat.eqb_spec len 64) as [->|Hl64]; cbn [negb].
  - cbn [bind]. eexists _, _; split; [reflexivity|]. cbn [bi_pos]. split; [|split; [reflexivity|split; [|lia]]].
    + intros i. destruct (Nat.ltb_spec i 64); cbn [andb]; [apply Hbits; lia|]. apply tb_high; assumption.
    + split; cbn [bi_buf bi_avail bi_pos]; [assumption|]. rewrite wsub_le by lia. split; [lia|]. intros i Hi. lia.
  - rewrite shl_ok, shr_ok by lia. cbn [bind]. eexists _, _; split; [reflexivity|]. cbn [bi_pos]. rewrite mask_ones by lia. split; [|split; [reflexivity|split]].
    + intros i. rewrite tb_land, tb_ones. destruct (Nat.ltb_spec i len); [|now rewrite andb_false_r]. rewrite andb_true_r. apply Hbits. lia.
    + split; cbn [bi_buf bi_avail bi_pos]; [now apply shiftr_lt|]. rewrite wsub_le by lia. split; [lia|]. intros i Hi. rewrite tb_shiftr, Hbits by lia. f_equal. lia.
    + intros _ Hc i Hi. cbn [bi_buf bi_avail] in *. rewrite wsub_le in Hi by lia. rewrite tb_shiftr. apply Hcl; [assumption|lia].
Qed.

Lemma bi_skip_zeros_ok ws it p fuel : words ws -> bi_ok ws it -> bi_clean it -> bi_pos it <= p -> bitat ws p = true ->
  (forall j, bi_pos it <= j < p -> bitat ws j = false) -> p - bi_pos it + 1 < fuel ->
  exists it', bi_skip_zeros ws fuel it = Ok (p - bi_pos it, it') /\ bi_pos it' = p + 1 /\ bi_ok ws it' /\ bi_clean it'.
Proof.
  intros Hw Hok Hcl Hp Hbit Hgap Hf. unfold bi_skip_zeros. pose proof (bitat_in _ _ Hbit) as Hpin.
  destruct (loop_ok_n (bi_skip_step ws)
    (fun n '(it1, zs) => n = p - bi_pos it1 + (if (bi_avail it1 =? 0)%N then 1 else 0) /\ bi_ok ws it1 /\ bi_clean it1 /\ bi_pos it + zs = bi_pos it1 /\ bi_pos it1 <= p)
    (fun '(r, it') => r = p - bi_pos it /\ bi_pos it' = p + 1 /\ bi_ok ws it' /\ bi_clean it'))
    with (fuel := fuel) (n := p - bi_pos it + (if (bi_avail it =? 0)%N then 1 else 0)) (s := (it, 0)) as ([r it'] & -> & (-> & H)); [| | |now exists it'].
  - intros n [it1 zs] (-> & (Hb1 & Ha1 & Hbits) & Hc & Hz & Hle). unfold bi_skip_step.
    destruct (N.eqb_spec (bi_buf it1) 0) as [E0|H0].
    + assert (Hout : bi_pos it1 + N.to_nat (bi_avail it1) <= p).
      { destruct (Nat.le_gt_cases (bi_pos it1 + N.to_nat (bi_avail it1)) p); [assumption|].
        specialize (Hbits (p - bi_pos it1) ltac:(lia)). rewrite E0, tb_of in Hbits. replace (bi_pos it1 + (p - bi_pos it1)) with p in Hbits by lia. congruence. }
      destruct (bi_fill_ok ws {| bi_pos := bi_pos it1 + N.to_nat (bi_avail it1); bi_buf := bi_buf it1; bi_avail := 0 |} Hw) as (it2 & -> & E1 & E2 & E3 & E4); [cbn; lia|].
      cbn [bind bi_pos] in *. exists (p - bi_pos it2 + (if (bi_avail it2 =? 0)%N then 1 else 0)). rewrite E1, E2. cbn [N.eqb].
      destruct (N.eqb_spec (bi_avail it1) 0); repeat split; auto; try apply E3; lia.
    + destruct (lsb_ok (bi_buf it1) H0) as (l & -> & Hl & Hlow). cbn [bind].
      assert (Hav : l < N.to_nat (bi_avail it1)) by (destruct (Nat.lt_ge_cases l (N.to_nat (bi_avail it1))); [assumption|]; rewrite Hc in Hl by assumption; discriminate).
      rewrite shr_ok by lia. cbn [bind]. rewrite shr_ok by lia. cbn [bind].
      assert (El : bi_pos it1 + l = p).
      { pose proof Hl as Hl'. rewrite Hbits in Hl' by assumption. destruct (Nat.lt_trichotomy (bi_pos it1 + l) p) as [L|[L|L]]; [|assumption|].
        - rewrite Hgap in Hl' by lia. discriminate.
        - exfalso. specialize (Hlow (p - bi_pos it1) ltac:(lia)). rewrite Hbits in Hlow by lia. replace (bi_pos it1 + (p - bi_pos it1)) with p in Hlow by lia. congruence. }
      split; [lia|]. cbn [bi_pos]. split; [lia|].
      assert (HaW : (bi_avail it1 < W64)%N) by (unfold W64; lia).
      split.
      * split; cbn [bi_buf bi_avail bi_pos]; [now apply shiftr_lt, shiftr_lt|]. rewrite wsub_le by lia. split; [lia|].
        intros i Hi. rewrite !tb_shiftr, Hbits by lia. f_equal. lia.
      * intros i Hi. cbn [bi_buf bi_avail] in *. rewrite wsub_le in Hi by lia. rewrite !tb_shiftr. apply Hc. lia.
  - repeat split; auto; try apply Hok.
  - destruct (bi_avail it =? 0)%N; lia.
Qed.
