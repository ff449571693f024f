(** The iterator of compact_ef. *)
From Coq Require Import Sorted.
From Verif Require Import Base M_Trie S_Trie M_Word S_Bits P_Word M_Bits P_Bits P_Rank P_BitsRead P_BitsIter P_Marks P_EfSeq M_Iter S_Iter M_CompactEf P_CompactEf.
Local Open Scope nat_scope.

Record ce_ctx (ws : list N) (tail : N) (o : ofs) (base : nat) (u : N) (vs : list N) : Prop := {
  cx_w : words ws;
  cx_tail : (tail < W64)%N;
  cx_o : ofs_ok o base u (length vs);
  cx_n : 0 < length vs;
  cx_nd : nondec vs;
  cx_u : Forall (fun v => (v < u)%N) vs;
  cx_us : small u;
  cx_la : laid (bitat ws) o vs (length vs) (o_hlen o - length vs);
  cx_fit : o_end o <= 64 * length ws
}.

(** The first index whose value is at least lb. *)
Fixpoint ngeq (vs : list N) (lb : N) : nat :=
  match vs with
  | [] => 0
  | v :: vs' => if (lb <=? v)%N then 0 else S (ngeq vs' lb)
  end.
Lemma ngeq_le vs lb : ngeq vs lb <= length vs.
Proof. induction vs as [|v vs IH]; cbn [ngeq length]; [lia|]. destruct (_ <=? _)%N; lia. Qed.
Lemma ngeq_below vs lb i : i < ngeq vs lb -> (nth i vs 0 < lb)%N.
Proof.
  revert i; induction vs as [|v vs IH]; intros i; cbn [ngeq]; [lia|]. destruct (N.leb_spec lb v); [lia|]. intros Hi. destruct i; cbn [nth]; [assumption|]. apply IH. lia.
Qed.
Lemma ngeq_at vs lb : ngeq vs lb < length vs -> (lb <= nth (ngeq vs lb) vs 0)%N.
Proof. induction vs as [|v vs IH]; cbn [ngeq length]; [lia|]. destruct (N.leb_spec lb v); cbn [nth]; [auto|]. intros Hlt. apply IH. lia. Qed.
Lemma ngeq_above vs lb i : nondec vs -> ngeq vs lb <= i -> i < length vs -> (lb <= nth i vs 0)%N.
Proof. intros Hnd H Hi. pose proof (ngeq_at vs lb ltac:(lia)). pose proof (Hnd (ngeq vs lb) i H Hi). lia. Qed.
Lemma ngeq_gt vs lb i : nondec vs -> i < length vs -> (nth i vs 0 < lb)%N -> i < ngeq vs lb.
Proof. intros Hnd Hi Hlt. destruct (Nat.lt_ge_cases i (ngeq vs lb)) as [|L]; [assumption|]. pose proof (ngeq_above vs lb i Hnd L Hi). lia. Qed.

Lemma split_exists l vs z : nondec vs -> exists r, split_at l vs z r.
Proof.
  intros Hnd. assert (H : forall m, m <= length vs -> exists r, r <= m /\ (forall k, k < r -> hpart l (nth k vs 0%N) < z) /\ (forall k, r <= k -> k < m -> z <= hpart l (nth k vs 0%N))).
  { induction m as [|m IH]; intros Hm; [exists 0; repeat split; lia|]. destruct (IH ltac:(lia)) as (r & Hr & H1 & H2).
    destruct (Nat.eq_dec r m) as [->|Hne].
    - destruct (Nat.lt_ge_cases (hpart l (nth m vs 0%N)) z) as [L|L].
      + exists (m + 1). split; [lia|]. split; [|intros; lia]. intros k Hk. destruct (Nat.eq_dec k m) as [->|]; [assumption|apply H1; lia].
      + exists m. split; [lia|]. split; [assumption|]. intros k Hk Hkm. assert (k = m) as -> by lia. assumption.
    - exists r. split; [lia|]. split; [assumption|]. intros k Hk Hkm. destruct (Nat.eq_dec k m) as [->|]; [|apply H2; lia].
      pose proof (H2 r ltac:(lia) ltac:(lia)). pose proof (hpart_mono l _ _ (Hnd r m ltac:(lia) ltac:(lia))). lia. }
  destruct (H (length vs) ltac:(lia)) as (r & Hr). exists r. exact Hr.
Qed.
Lemma split_mono l vs z z' r r' : split_at l vs z r -> split_at l vs z' r' -> z <= z' -> r <= r'.
Proof.
  intros (H1 & H2 & H3) (H1' & H2' & H3') Hz. destruct (Nat.le_gt_cases r r'); [assumption|]. specialize (H2 r' ltac:(lia)). specialize (H3' r' ltac:(lia) ltac:(lia)). lia.
Qed.

Section It.
Context (ws : list N) (tail : N) (o : ofs) (base : nat) (u : N) (vs : list N) (X : ce_ctx ws tail o base u vs).
Let n := length vs.
Let l := o_l o.
Let H0 := o_high o.
Let g := hbit (bitat ws) o.
Let ep := epos l vs.

Local Lemma Hl : l <= 55. Proof. apply (oo_l _ _ _ _ (cx_o _ _ _ _ _ _ X)). Qed.
Local Lemma Hmarks : marks g ep n. Proof. apply (la_high _ _ _ _ _ (cx_la _ _ _ _ _ _ X)). Qed.
Local Lemma Hend : H0 + o_hlen o <= 64 * length ws.
Proof.
  pose proof (cx_fit _ _ _ _ _ _ X). pose proof (oo_low _ _ _ _ (cx_o _ _ _ _ _ _ X)). pose proof (oo_end _ _ _ _ (cx_o _ _ _ _ _ _ X)). fold H0 in H1.
  remember (length vs * o_l o) as e. lia.
Qed.
Local Lemma Hep i : i < n -> ep i + 1 < o_hlen o. Proof. intros Hi. eapply epos_in; [apply X|apply X|assumption]. Qed.
Lemma g_bit j : j < o_hlen o -> g j = bitat ws (H0 + j).
Proof. intros H. unfold g, hbit. apply Nat.ltb_lt in H. now rewrite H. Qed.
Lemma nth_u i : i < n -> (nth i vs 0 < u)%N.
Proof. intros Hi. apply (proj1 (Forall_forall _ _) (cx_u _ _ _ _ _ _ X)), nth_In. assumption. Qed.
Local Lemma HuW : (u < W64)%N.
Proof. pose proof (cx_us _ _ _ _ _ _ X) as H. unfold small in H. rewrite W64_pow. assert (2 ^ 55 < 2 ^ 64)%N by reflexivity. lia. Qed.

(** Counting ones and zeros in the high part. *)
Lemma cnt_from a b : a <= b -> b <= o_hlen o -> cnt (from_ ws (H0 + a)) (H0 + b) = cnt g b - cnt g a.
Proof.
  intros Hab Hb. rewrite cnt_app. rewrite (cnt_zero (from_ ws (H0 + a)) H0).
  2:{ intros j Hj. unfold from_. destruct (Nat.leb_spec (H0 + a) j); [lia|reflexivity]. }
  rewrite Nat.add_0_l. rewrite (cnt_ext _ (fun x => (a <=? x) && g x)).
  2:{ intros j Hj. unfold from_. rewrite g_bit by lia. destruct (Nat.leb_spec (H0 + a) (H0 + j)), (Nat.leb_spec a j); try (exfalso; lia); reflexivity. }
  replace b with (a + (b - a)) by lia. rewrite !cnt_app. rewrite (cnt_zero (fun x => (a <=? x) && g x) a).
  2:{ intros j Hj. destruct (Nat.leb_spec a j); [lia|reflexivity]. }
  rewrite Nat.add_0_l. replace (a + (b - a) - a) with (b - a) by lia. rewrite (cnt_ext _ (fun x => g (a + x))); [lia|].
  intros j Hj. destruct (Nat.leb_spec a (a + j)); [reflexivity|lia].
Qed.
Lemma cnt_gap a c b : a <= c -> c <= b -> b <= o_hlen o -> cnt (gap_ ws (H0 + a) (H0 + c)) (H0 + b) + (cnt g b - cnt g c) = b - a.
Proof.
  intros Hac Hcb Hb. rewrite <- cnt_from by lia. replace (H0 + b) with (H0 + a + (b - a)) by lia. rewrite !cnt_app.
  rewrite (cnt_zero (gap_ ws (H0 + a) (H0 + c)) H0).
  2:{ intros j Hj. unfold gap_. destruct (Nat.leb_spec (H0 + a) j); [lia|reflexivity]. }
  rewrite (cnt_zero (fun x => gap_ ws (H0 + a) (H0 + c) (H0 + x)) a).
  2:{ intros j Hj. unfold gap_. destruct (Nat.leb_spec (H0 + a) (H0 + j)); [lia|reflexivity]. }
  rewrite (cnt_zero (from_ ws (H0 + c)) H0).
  2:{ intros j Hj. unfold from_. destruct (Nat.leb_spec (H0 + c) j); [lia|reflexivity]. }
  rewrite (cnt_zero (fun x => from_ ws (H0 + c) (H0 + x)) a).
  2:{ intros j Hj. unfold from_. destruct (Nat.leb_spec (H0 + c) (H0 + j)); [lia|reflexivity]. }
  rewrite (cnt_ext (fun x => gap_ ws (H0 + a) (H0 + c) (H0 + a + x)) (fun x => negb (from_ ws (H0 + c) (H0 + a + x)))).
  2:{ intros j Hj. unfold gap_. destruct (Nat.leb_spec (H0 + a) (H0 + a + j)); [reflexivity|lia]. }
  pose proof (cnt_negb (fun x => from_ ws (H0 + c) (H0 + a + x)) (b - a)). lia.
Qed.

(** The enumerator has just returned value number k; it will return value number k next. *)
Definition stands (en : uiter) (k : nat) : Prop := u_pos en = H0 + ep k /\ ui_ok ws en (H0 + ep k + 1).
Definition ready (en : uiter) (k : nat) : Prop :=
  exists q, ui_ok ws en q /\ q <= 64 * (u_pos en / 64 + 1) /\ 64 * (u_pos en / 64) <= H0 + ep k /\ q <= H0 + ep k /\
    forall j, q <= j < H0 + ep k -> bitat ws j = false.
Lemma mark_bit i : i < n -> bitat ws (H0 + ep i) = true.
Proof. intros Hi. rewrite <- g_bit by (pose proof (Hep i Hi); lia). apply (marks_at _ _ _ _ Hmarks Hi). Qed.
Lemma mark_gap i j : i + 1 < n -> H0 + ep i + 1 <= j < H0 + ep (i + 1) -> bitat ws j = false.
Proof.
  intros Hi Hj. replace j with (H0 + (j - H0)) by lia. pose proof (Hep (i + 1) Hi). rewrite <- g_bit by lia. apply (marks_gap _ _ _ i _ Hmarks Hi). lia.
Qed.
Lemma ep_mono i j : i < j -> j < n -> ep i < ep j.
Proof. apply (mk_inc _ _ _ Hmarks). Qed.
Lemma div64_le a : 64 * (a / 64) <= a.
Proof. apply Nat.mul_div_le. lia. Qed.
Lemma div64_gt a : a + 1 <= 64 * (a / 64 + 1).
Proof. pose proof (Nat.div_mod a 64 ltac:(lia)). pose proof (Nat.mod_upper_bound a 64 ltac:(lia)). lia. Qed.
Lemma stands_ready en k : stands en k -> k + 1 < n -> ready en (k + 1).
Proof.
  intros [Ep Hok] Hk. exists (H0 + ep k + 1). pose proof (ep_mono k (k + 1) ltac:(lia) Hk). split; [assumption|]. rewrite Ep.
  pose proof (div64_le (H0 + ep k)). pose proof (div64_gt (H0 + ep k)). split; [lia|]. split; [lia|]. split; [lia|]. intros j Hj. now apply (mark_gap k).
Qed.
Lemma fuel_ok p q : p < 64 * length ws -> p / 64 - q < S (length ws).
Proof. intros H. assert (p / 64 < length ws) by (apply Nat.div_lt_upper_bound; lia). lia. Qed.
Lemma next_one en k : ready en k -> k < n -> exists en', ui_next ws (S (length ws)) en = Ok (H0 + ep k, en') /\ stands en' k.
Proof.
  intros (q & Hok & H1 & H2 & H3 & H4) Hk. pose proof (mark_bit k Hk) as Hb. destruct (ui_next_ok ws en q (H0 + ep k) (S (length ws))) as (en' & E & Ep & Hok'); auto.
  - apply X.
  - apply fuel_ok, bitat_in, Hb.
  - exists en'. split; [assumption|]. split; assumption.
Qed.

(** ** Reading values *)
Definition here (it : ceit) : Prop := c_ws it = ws /\ c_tail it = tail /\ c_of it = o.
Lemma c_size_ok it : here it -> c_size it = n.
Proof. intros (_ & _ & E). unfold c_size. rewrite E. apply (oo_n _ _ _ _ (cx_o _ _ _ _ _ _ X)). Qed.
Lemma here_moved it p v en : here it -> here (c_moved it p v en).
Proof. intros H. exact H. Qed.
Lemma read_low_ok it k : here it -> k < n -> c_read_low it k = Ok (nth k vs 0 mod 2 ^ N.of_nat l)%N.
Proof.
  intros (E1 & E2 & E3) Hk. unfold c_read_low. rewrite E1, E2, E3. fold l. pose proof (oo_end _ _ _ _ (cx_o _ _ _ _ _ _ X)) as Ee. pose proof (cx_fit _ _ _ _ _ _ X). fold l in Ee. fold n in Ee.
  pose proof (ptr_in (k + 1) n l ltac:(lia) ltac:(lia)) as Hin. replace (k + 1 - 1) with k in Hin by lia.
  remember (n * l) as nl. remember (k * l) as kl eqn:Ekl. pose proof Hl.
  destruct (get_word56_field ws tail (o_low o + kl) l) as (r & -> & Hr & Hf); [apply X|apply X|lia|lia|]. cbn [bind].
  rewrite (oo_mask _ _ _ _ (cx_o _ _ _ _ _ _ X)). fold l. f_equal. apply tb_ext. intros c. rewrite (Hf c), tb_mod_pow.
  destruct (Nat.ltb_spec c l); [|reflexivity]. cbn [andb]. rewrite Ekl. apply (la_low _ _ _ _ _ (cx_la _ _ _ _ _ _ X) k Hk c). assumption.
Qed.
Lemma value_ok it k : here it -> k < n -> c_value it (H0 + ep k) k (nth k vs 0 mod 2 ^ N.of_nat l)%N = Ok (nth k vs 0%N).
Proof.
  intros (_ & _ & E3) Hk. unfold c_value. rewrite E3. fold H0 l. unfold ep, epos.
  destruct (Nat.ltb_spec (H0 + (hpart l (nth k vs 0%N) + k + 1)) (H0 + k + 1)); [lia|]. pose proof Hl. rewrite shl_ok by lia. cbn [bind].
  replace (H0 + (hpart l (nth k vs 0%N) + k + 1) - H0 - k - 1) with (hpart l (nth k vs 0%N)) by lia. unfold hpart. rewrite N2Nat.id. f_equal. apply join_parts; [lia|].
  pose proof (nth_u k Hk). pose proof HuW. lia.
Qed.
Lemma read_next_ok it en k : here it -> ready en k -> k < n -> exists en', c_read_next it k en = Ok (nth k vs 0%N, en') /\ stands en' k.
Proof.
  intros Hh Hr Hk. unfold c_read_next, c_next_one, c_fuel. destruct (next_one en k Hr Hk) as (en' & E & Hs). rewrite (proj1 Hh), E. cbn [bind].
  rewrite read_low_ok by assumption. cbn [bind]. rewrite value_ok by assumption. cbn [bind]. exists en'. split; [reflexivity|assumption].
Qed.

(** Standing at position p. *)
Record ce_at (it : ceit) (p : nat) : Prop := {
  ca_here : here it;
  ca_le : p <= n;
  ca_in : p < n -> c_pos it = p /\ c_val it = nth p vs 0%N /\ stands (c_en it) p;
  ca_out : p = n -> c_pos it = n /\ c_val it = u
}.
Lemma at_in it p en : here it -> p < n -> stands en p -> ce_at (c_moved it p (nth p vs 0%N) en) p.
Proof. intros Hh Hp Hs. split; [now apply here_moved|lia|auto|lia]. Qed.
Lemma at_out it p en : here it -> n = p -> ce_at (c_moved it p u en) n.
Proof. intros Hh Hp. split; [now apply here_moved|lia|lia|auto]. Qed.
Lemma at_pos it p : ce_at it p -> c_pos it = p.
Proof. intros [_ Hle Hin Hout]. destruct (Nat.eq_dec p n) as [E|E]; [rewrite E in *; now apply Hout|apply Hin; lia]. Qed.
Lemma o_u_ok it : here it -> o_u (c_of it) = u.
Proof. intros (_ & _ & ->). apply X. Qed.

Lemma next_ok it p : ce_at it p -> p < n -> exists it', c_next it = Ok it' /\ ce_at it' (p + 1).
Proof.
  intros [Hh _ Hin _] Hp. destruct (Hin Hp) as (Ep & Ev & Hs). unfold c_next. rewrite c_size_ok, Ep by assumption.
  destruct (Nat.ltb_spec (p + 1) n) as [L|L].
  - destruct (read_next_ok it (c_en it) (p + 1) Hh) as (en' & -> & Hs'); [now apply stands_ready|assumption|]. cbn [bind]. eexists; split; [reflexivity|]. now apply at_in.
  - rewrite o_u_ok by assumption. eexists; split; [reflexivity|]. replace (p + 1) with n by lia. apply at_out; [assumption|lia].
Qed.

(** ** access *)
Lemma pointer_ok it off i x : here it -> 0 < i -> slot (bitat ws) (off + (i - 1) * o_psize o) (o_psize o) (N.of_nat x) ->
  off + (i - 1) * o_psize o + o_psize o <= 64 * length ws -> x < o_hlen o -> c_pointer it off i = Ok x.
Proof.
  intros (E1 & E2 & E3) Hi Hs Hfit Hx. unfold c_pointer. destruct (Nat.eqb_spec i 0); [lia|]. rewrite E1, E2, E3.
  pose proof (oo_ps _ _ _ _ (cx_o _ _ _ _ _ _ X)). pose proof (oo_ptr _ _ _ _ (cx_o _ _ _ _ _ _ X)).
  remember (off + (i - 1) * o_psize o) as a eqn:Ea.
  destruct (get_word56_field ws tail a (o_psize o)) as (r & -> & Hr & Hf); [apply X|apply X|lia|lia|]. cbn [bind]. rewrite shl_ok by lia. cbn [bind]. rewrite mask_ones by lia.
  f_equal. rewrite <- (Nat2N.id x). f_equal. apply tb_ext. intros c. rewrite (Hf c). destruct (Nat.ltb_spec c (o_psize o)); cbn [andb]; [now apply Hs|].
  symmetry. apply (proj1 (below_pow_iff (N.of_nat x) (o_psize o))); [lia|assumption].
Qed.
Lemma cnt_ep i : i < n -> cnt g (ep i) = i.
Proof. intros Hi. apply (marks_at _ _ _ _ Hmarks Hi). Qed.
(** skip from a position of the high part. *)
Lemma skip_ok en a k i : ui_ok ws en (H0 + a) -> 64 * (u_pos en / 64) <= H0 + a <= 64 * (u_pos en / 64 + 1) -> i < n -> a <= ep i -> cnt g a + k = i ->
  exists en', ui_skip ws (S (length ws)) en k = Ok en' /\ ready en' i.
Proof.
  intros Hok Hq Hi Ha Hk. pose proof (mark_bit i Hi) as Hb.
  destruct (ui_skip_ok ws en (H0 + a) k (H0 + ep i) (S (length ws))) as (en' & E & Ep & Hok'); auto.
  - apply X.
  - apply from_intro; [lia|assumption].
  - pose proof (Hep i Hi). rewrite cnt_from, cnt_ep by (assumption || lia). lia.
  - apply fuel_ok, bitat_in, Hb.
  - exists en'. split; [assumption|]. exists (H0 + ep i). split; [assumption|]. rewrite Ep.
    pose proof (div64_le (H0 + ep i)). pose proof (div64_gt (H0 + ep i)). split; [lia|]. split; [lia|]. split; [lia|]. intros; lia.
Qed.
Lemma jump1_ok it i : here it -> i < n -> exists a en, c_pointer it (o_p1 o) (i / 256) = Ok a /\ ui_new ws (H0 + a) = Ok en /\
  u_pos en = H0 + a /\ ui_ok ws en (H0 + a) /\ a <= ep i /\ cnt g a = 256 * (i / 256).
Proof.
  intros Hh Hi. pose proof Hend as He. pose proof (Hep i Hi) as Hei.
  pose proof (Nat.div_mod i 256 ltac:(lia)) as Edm. pose proof (Nat.mod_upper_bound i 256 ltac:(lia)) as Hdm. set (t := i / 256) in *.
  assert (Ha : exists a, c_pointer it (o_p1 o) t = Ok a /\ a <= ep i /\ cnt g a = 256 * t).
  { destruct (Nat.eq_dec t 0) as [E|E].
    - exists 0. unfold c_pointer. destruct (Nat.eqb_spec t 0); [|lia]. split; [reflexivity|]. split; [lia|]. rewrite E. reflexivity.
    - exists (ep (256 * t)). pose proof (Hep (256 * t) ltac:(lia)) as Het. split; [|split].
      + apply pointer_ok; [assumption|lia| | |lia].
        * apply (la_p1 _ _ _ _ _ (cx_la _ _ _ _ _ _ X)); [lia|]. fold n. lia.
        * pose proof (ptr_in t (n / 256) (o_psize o) ltac:(lia) ltac:(apply Nat.div_le_lower_bound; lia)) as Hp.
          pose proof (oo_high _ _ _ _ (cx_o _ _ _ _ _ _ X)) as Eh. fold n in Eh. fold H0 in Eh. remember ((t - 1) * o_psize o) as x. remember (n / 256 * o_psize o) as y. lia.
      + destruct (Nat.eq_dec (256 * t) i) as [->|]; [lia|]. pose proof (ep_mono (256 * t) i ltac:(lia) Hi). lia.
      + apply cnt_ep. lia. }
  destruct Ha as (a & E1 & Ha & Hc). destruct (ui_new_ok ws (H0 + a)) as (en & E2 & Ep & Hok); [apply X|lia|]. exists a, en. auto 10.
Qed.
Lemma slow_access_ok it i : here it -> i <= n -> (c_pos it < i -> c_pos it < n /\ stands (c_en it) (c_pos it)) ->
  exists it', c_slow_access it i = Ok it' /\ ce_at it' i.
Proof.
  intros Hh Hi Hs. unfold c_slow_access. rewrite c_size_ok, o_u_ok by assumption. destruct (Nat.eqb_spec i n) as [->|Hne].
  - eexists; split; [reflexivity|]. apply at_out; [assumption|lia].
  - assert (Hin : i < n) by lia. unfold c_fuel. pose proof Hh as (E1 & E2 & E3). rewrite E1, E3. fold H0.
    assert (H : forall en sk en', ui_skip ws (S (length ws)) en sk = Ok en' -> ready en' i ->
      exists it', (do (en, to_skip) <- Ok (en, sk); do en <- ui_skip ws (S (length ws)) en to_skip; do (v, en) <- c_read_next it i en; Ok (c_moved it i v en)) = Ok it' /\ ce_at it' i).
    { intros en sk en' E Hr. cbn [bind]. rewrite E. cbn [bind]. destruct (read_next_ok it en' i Hh Hr Hin) as (en'' & -> & Hs'). cbn [bind]. eexists; split; [reflexivity|]. now apply at_in. }
    destruct ((c_pos it <? i) && ((i - c_pos it) / 256 =? 0)) eqn:Ec.
    + apply andb_true_iff in Ec as [Ec _]. apply Nat.ltb_lt in Ec. destruct (Hs Ec) as (Hp & Ep & Hok). pose proof (div64_le (u_pos (c_en it))). pose proof (div64_gt (u_pos (c_en it))).
      pose proof (ep_mono (c_pos it) i Ec Hin).
      assert (Hc : cnt g (ep (c_pos it) + 1) = c_pos it + 1). { rewrite Nat.add_1_r, cnt_S, cnt_ep by assumption. rewrite (proj1 (marks_at _ _ _ _ Hmarks Hp)). lia. }
      destruct (skip_ok (c_en it) (ep (c_pos it) + 1) (i - c_pos it - 1) i) as (en' & E & Hr); [|lia|assumption|lia|lia|].
      { replace (H0 + (ep (c_pos it) + 1)) with (H0 + ep (c_pos it) + 1) by lia. assumption. }
      eapply H; eassumption.
    + destruct (jump1_ok it i Hh Hin) as (a & en & -> & Hn & Ep & Hok & Ha & Hc). cbn [bind]. rewrite Hn. cbn [bind].
      pose proof (div64_le (u_pos en)). pose proof (div64_gt (u_pos en)).
      destruct (skip_ok en a (i - 256 * (i / 256)) i) as (en' & E & Hr); [assumption|lia|assumption|assumption|pose proof (Nat.mul_div_le i 256 ltac:(lia)); lia|].
      eapply H in Hr; [|exact E]. cbn [bind] in Hr. exact Hr.
Qed.
Lemma skip_next_ok it k : here it -> forall en p, stands en p -> p + k < n -> exists en', c_skip_next it en k = Ok en' /\ stands en' (p + k).
Proof.
  intros Hh. induction k as [|k IH]; intros en p Hs Hk; cbn [c_skip_next].
  - exists en. split; [reflexivity|]. now rewrite Nat.add_0_r.
  - unfold c_next_one, c_fuel. rewrite (proj1 Hh). destruct (next_one en (p + 1)) as (en' & -> & Hs'); [apply stands_ready; [assumption|lia]|lia|]. cbn [bind].
    destruct (IH en' (p + 1) Hs' ltac:(lia)) as (en'' & E & Hs''). exists en''. split; [assumption|]. replace (p + S k) with (p + 1 + k) by lia. assumption.
Qed.
Lemma access_ok it p i : ce_at it p -> i <= n -> exists it', c_access it i = Ok it' /\ ce_at it' i.
Proof.
  intros [Hh Hp Hin Hout] Hi. unfold c_access.
  assert (Hcur : c_pos it < i -> p < n /\ c_pos it = p /\ stands (c_en it) p).
  { intros L. destruct (Nat.eq_dec p n) as [E|E]; [destruct (Hout E); lia|]. destruct (Hin ltac:(lia)) as (Ep & _ & Hs). auto with arith. split; [lia|auto]. }
  destruct (Nat.ltb_spec (c_pos it) i) as [L|L]; cbn [andb]; [destruct (Nat.leb_spec (i - c_pos it) 8) as [L'|L']|].
  - destruct (Hcur L) as (Hpn & Ep & Hs). rewrite c_size_ok, o_u_ok by assumption. destruct (Nat.eqb_spec i n) as [->|Hne].
    + eexists; split; [reflexivity|]. apply at_out; [assumption|lia].
    + rewrite Ep in *. destruct (skip_next_ok it (i - p) Hh (c_en it) p Hs ltac:(lia)) as (en' & -> & Hs'). replace (p + (i - p)) with i in Hs' by lia. cbn [bind].
      rewrite read_low_ok by (assumption || lia). cbn [bind]. rewrite (proj1 Hs'), value_ok by (assumption || lia). cbn [bind]. eexists; split; [reflexivity|]. apply at_in; [assumption|lia|assumption].
  - apply slow_access_ok; [assumption|assumption|]. intros _. destruct (Hcur L) as (Hpn & Ep & Hs). rewrite Ep. auto.
  - apply slow_access_ok; [assumption|assumption|]. lia.
Qed.

(** ** next_geq *)
Lemma scan_ok it lb p en : here it -> p < n -> stands en p -> p < ngeq vs lb ->
  exists it', loop (S (S n)) (c_scan_step it lb) (p, en) = Ok it' /\ ce_at it' (ngeq vs lb).
Proof.
  intros Hh Hp Hs Hlt. pose proof (ngeq_le vs lb) as Hle. fold n in Hle.
  apply (loop_ok (c_scan_step it lb) (fun '(k, en) => k < n /\ stands en k /\ k < ngeq vs lb) (fun '(k, _) => n - k) (fun it' => ce_at it' (ngeq vs lb))).
  - intros (k, e) (Hk & Hst & Hkl). unfold c_scan_step. rewrite c_size_ok by assumption. destruct (Nat.ltb_spec (k + 1) n) as [L|L].
    + destruct (read_next_ok it e (k + 1) Hh) as (en' & -> & Hs'); [now apply stands_ready|assumption|]. cbn [bind].
      destruct (N.ltb_spec (nth (k + 1) vs 0%N) lb) as [L1|L1].
      * split; [|lia]. split; [assumption|]. split; [assumption|]. apply ngeq_gt; [apply X|assumption|assumption].
      * assert (E : ngeq vs lb = k + 1). { destruct (Nat.eq_dec (ngeq vs lb) (k + 1)); [assumption|]. pose proof (ngeq_below vs lb (k + 1) ltac:(lia)). lia. }
        rewrite E. now apply at_in.
    + rewrite o_u_ok by assumption. replace (ngeq vs lb) with n by lia. apply at_out; [assumption|lia].
  - auto.
  - lia.
Qed.
Lemma slow_scan_ok it lb r en : here it -> (r < n -> ready en r) -> r <= ngeq vs lb ->
  exists it', loop (S (S n)) (c_slow_scan_step it lb) (r, en) = Ok it' /\ ce_at it' (ngeq vs lb).
Proof.
  intros Hh Hr Hlt. pose proof (ngeq_le vs lb) as Hle. fold n in Hle.
  apply (loop_ok (c_slow_scan_step it lb) (fun '(k, en) => (k < n -> ready en k) /\ k <= ngeq vs lb) (fun '(k, _) => n - k) (fun it' => ce_at it' (ngeq vs lb))).
  - intros (k, e) (Hst & Hkl). unfold c_slow_scan_step. rewrite c_size_ok by assumption. destruct (Nat.eqb_spec k n) as [->|Hne].
    + rewrite o_u_ok by assumption. replace (ngeq vs lb) with n by lia. apply at_out; [assumption|lia].
    + assert (L : k < n) by lia. destruct (read_next_ok it e k Hh (Hst L) L) as (en' & -> & Hs'). cbn [bind].
      destruct (N.leb_spec lb (nth k vs 0%N)) as [L1|L1].
      * assert (E : ngeq vs lb = k). { destruct (Nat.eq_dec (ngeq vs lb) k); [assumption|]. pose proof (ngeq_below vs lb k ltac:(lia)). lia. }
        rewrite E. now apply at_in.
      * split; [|lia]. split; [intros; now apply stands_ready|]. assert (k < ngeq vs lb); [|lia]. apply ngeq_gt; [apply X|assumption|assumption].
  - auto.
  - lia.
Qed.
(** The zero number z is at z plus the number of values with a smaller high part. *)
Lemma zero_at z r : split_at l vs z r -> z <= hpart l u -> z + r < o_hlen o /\ cnt g (z + r) = r /\ bitat ws (H0 + (z + r)) = false.
Proof.
  intros (H1 & H2 & H3) Hz. assert (Hin : z + r < o_hlen o). { rewrite (oo_hlen _ _ _ _ (cx_o _ _ _ _ _ _ X)). fold l n. fold n in H1. lia. }
  split; [assumption|]. destruct (marks_cnt _ _ _ Hmarks (z + r)) as (Hc1 & Hc2 & Hc3).
  assert (Hc : cnt g (z + r) = r).
  { destruct (Nat.lt_trichotomy (cnt g (z + r)) r) as [L|[L|L]]; [|assumption|].
    - specialize (Hc3 (cnt g (z + r)) ltac:(lia) ltac:(fold n in H1; lia)). specialize (H2 _ L). unfold ep, epos in Hc3. lia.
    - specialize (Hc2 r L). specialize (H3 r ltac:(lia) ltac:(fold n; lia)). unfold ep, epos in Hc2. lia. }
  split; [assumption|]. rewrite <- g_bit by assumption. destruct (g (z + r)) eqn:E; [|reflexivity]. apply (mk_iff _ _ _ Hmarks) in E as (k & Hk & E). unfold ep, epos in E.
  destruct (Nat.lt_ge_cases k r) as [L|L]; [specialize (H2 k L); lia|specialize (H3 k L Hk); lia].
Qed.
(** skip0 from bit a of the high part, whose one (if any) has been consumed, to the zero number z. *)
Lemma skip0_ok en a c z r k : split_at l vs z r -> z <= hpart l u -> u_pos en = H0 + a -> ui_ok ws en (H0 + c) -> a <= c <= a + 1 -> c <= z + r -> a + k + r = z + r + cnt g c ->
  exists en', ui_skip0 ws (S (length ws)) en k = Ok en' /\ u_pos en' = H0 + (z + r) /\ (r < n -> ready en' r).
Proof.
  intros Hsp Hz Ep Hok Hac Hc Hk. destruct (zero_at z r Hsp Hz) as (Hin & Hcz & Hb). pose proof Hend as He.
  destruct (ui_skip0_ok ws en (H0 + c) k (H0 + (z + r)) (S (length ws))) as (en' & E & Ep' & Hok').
  - apply X.
  - assumption.
  - lia.
  - lia.
  - unfold gap_, from_. rewrite Ep, Hb, andb_false_r. destruct (Nat.leb_spec (H0 + a) (H0 + (z + r))); [reflexivity|lia].
  - rewrite Ep. pose proof (cnt_gap a c (z + r) ltac:(lia) ltac:(lia) ltac:(lia)) as Hg. pose proof (cnt_mono g c (z + r) ltac:(lia)). lia.
  - apply fuel_ok. lia.
  - exists en'. split; [assumption|]. split; [assumption|]. intros Hr. destruct Hsp as (H1 & H2 & H3). pose proof (H3 r ltac:(lia) Hr) as Hhr.
    assert (Hzr : z + r < ep r) by (unfold ep, epos; lia).
    exists (H0 + (z + r) + 1). split; [assumption|]. rewrite Ep'. pose proof (div64_le (H0 + (z + r))). pose proof (div64_gt (H0 + (z + r))).
    split; [lia|]. split; [lia|]. split; [lia|]. intros j Hj. pose proof (Hep r Hr). replace j with (H0 + (j - H0)) by lia. rewrite <- g_bit by lia.
    destruct (g (j - H0)) eqn:Eg; [|reflexivity]. exfalso.
    pose proof (cnt_lt g (j - H0) (ep r) ltac:(lia) Eg) as C1. rewrite cnt_ep in C1 by assumption. pose proof (cnt_mono g (z + r) (j - H0) ltac:(lia)). lia.
Qed.
Lemma jump0_ok it z r : here it -> split_at l vs z r -> z <= hpart l u -> exists a en, c_pointer it (o_p0 o) (z / 512) = Ok a /\ ui_new ws (H0 + a) = Ok en /\
  u_pos en = H0 + a /\ ui_ok ws en (H0 + a) /\ a <= z + r /\ cnt g a + 512 * (z / 512) = a.
Proof.
  intros Hh Hsp Hz. pose proof Hend as He. destruct (zero_at z r Hsp Hz) as (Hin & Hcz & _).
  pose proof (Nat.mul_div_le z 512 ltac:(lia)) as Edm. set (t := z / 512) in *.
  pose proof (oo_hlen _ _ _ _ (cx_o _ _ _ _ _ _ X)) as Ehl. fold l n in Ehl.
  assert (Ha : exists a, c_pointer it (o_p0 o) t = Ok a /\ a <= z + r /\ cnt g a + 512 * t = a).
  { destruct (Nat.eq_dec t 0) as [E|E].
    - exists 0. unfold c_pointer. destruct (Nat.eqb_spec t 0); [|lia]. split; [reflexivity|]. split; [lia|]. rewrite E. reflexivity.
    - destruct (la_p0 _ _ _ _ _ (cx_la _ _ _ _ _ _ X) t ltac:(lia)) as (r' & Hsp' & Hs). { cbn beta. fold n. lia. }
      fold l in Hsp'. pose proof (split_mono _ _ _ _ _ _ Hsp' Hsp Edm) as Hrr. destruct (zero_at (512 * t) r' Hsp' ltac:(lia)) as (Hin' & Hc' & _).
      exists (512 * t + r'). split; [|split; lia].
      apply pointer_ok; [assumption|lia|assumption| |assumption].
      pose proof (ptr_in t ((o_hlen o - n) / 512) (o_psize o) ltac:(lia) ltac:(apply Nat.div_le_lower_bound; lia)) as Hp.
      pose proof (oo_high _ _ _ _ (cx_o _ _ _ _ _ _ X)) as Eh. pose proof (oo_p1 _ _ _ _ (cx_o _ _ _ _ _ _ X)) as Eh1. fold n in Eh, Eh1. fold H0 in Eh.
      remember ((t - 1) * o_psize o) as x. remember (n / 256 * o_psize o) as y. remember ((o_hlen o - n) / 512 * o_psize o) as y'. lia. }
  destruct Ha as (a & E1 & Ha & Hc). destruct (ui_new_ok ws (H0 + a)) as (en & E2 & Ep & Hok); [apply X|lia|]. exists a, en. auto 10.
Qed.
Lemma hpart_lt_val a b : hpart l a < hpart l b -> (a < b)%N.
Proof. intros H. destruct (N.lt_ge_cases a b); [assumption|]. pose proof (hpart_mono l b a ltac:(assumption)). lia. Qed.
Lemma split_ngeq lb r : split_at l vs (hpart l lb) r -> r <= ngeq vs lb.
Proof.
  intros (H1 & H2 & H3). destruct (Nat.le_gt_cases r (ngeq vs lb)) as [|L]; [assumption|]. pose proof (ngeq_at vs lb ltac:(lia)) as Hat. specialize (H2 _ L).
  apply hpart_lt_val in H2. lia.
Qed.
Lemma slow_next_geq_ok it p lb : ce_at it p -> ((c_val it < lb)%N -> hpart l (c_val it) < hpart l lb) ->
  exists it', c_slow_next_geq it lb = Ok it' /\ ce_at it' (ngeq vs lb).
Proof.
  intros Hat Hd. pose proof Hat as [Hh Hp Hin Hout]. unfold c_slow_next_geq. rewrite o_u_ok by assumption. destruct (N.leb_spec u lb) as [Lu|Lu].
  - rewrite c_size_ok by assumption. replace (ngeq vs lb) with n; [apply (access_ok it p n Hat); lia|].
    pose proof (ngeq_le vs lb) as Hle. fold n in Hle. destruct (Nat.eq_dec (ngeq vs lb) n); [congruence|]. pose proof (ngeq_at vs lb ltac:(fold n; lia)). pose proof (nth_u (ngeq vs lb) ltac:(lia)). lia.
  - pose proof Hh as (E1 & E2 & E3). unfold c_fuel. rewrite E1, E3. fold l H0. pose proof Hl as Hll. rewrite !shr_ok by lia. cbn [bind]. fold (hpart l lb) (hpart l (c_val it)).
    rewrite c_size_ok by assumption.
    destruct (split_exists l vs (hpart l lb) (cx_nd _ _ _ _ _ _ X)) as (r & Hsp). pose proof (split_ngeq lb r Hsp) as Hrn.
    assert (Hz : hpart l lb <= hpart l u) by (apply hpart_mono; lia).
    assert (H : forall en sk en', ui_skip0 ws (S (length ws)) en sk = Ok en' -> u_pos en' = H0 + (hpart l lb + r) -> (r < n -> ready en' r) ->
      exists it', (do (en, to_skip) <- Ok (en, sk); do en <- ui_skip0 ws (S (length ws)) en to_skip;
        if u_pos en <? H0 + hpart l lb then UB else loop (S (S n)) (c_slow_scan_step it lb) (u_pos en - H0 - hpart l lb, en)) = Ok it' /\ ce_at it' (ngeq vs lb)).
    { intros en sk en' E Ep Hr. cbn [bind]. rewrite E. cbn [bind]. rewrite Ep. destruct (Nat.ltb_spec (H0 + (hpart l lb + r)) (H0 + hpart l lb)); [lia|].
      replace (H0 + (hpart l lb + r) - H0 - hpart l lb) with r by lia. now apply slow_scan_ok. }
    destruct ((c_val it <? lb)%N && ((hpart l lb - hpart l (c_val it)) / 512 =? 0)) eqn:Ec.
    + apply andb_true_iff in Ec as [Ec _]. apply N.ltb_lt in Ec. specialize (Hd Ec).
      assert (Hpn : p < n). { destruct (Nat.eq_dec p n) as [E|E]; [|lia]. destruct (Hout E) as [_ Ev]. lia. }
      destruct (Hin Hpn) as (Ep & Ev & Hpos & Hok). rewrite Ev in *.
      assert (Hpr : p < r). { destruct Hsp as (_ & _ & H3). destruct (Nat.lt_ge_cases p r); [assumption|]. specialize (H3 p ltac:(lia) Hpn). lia. }
      assert (Hc : cnt g (ep p + 1) = p + 1). { rewrite Nat.add_1_r, cnt_S, cnt_ep by assumption. rewrite (proj1 (marks_at _ _ _ _ Hmarks Hpn)). lia. }
      destruct (skip0_ok (c_en it) (ep p) (ep p + 1) (hpart l lb) r (hpart l lb - hpart l (nth p vs 0%N))) as (en' & E & Ep' & Hr); auto.
      * replace (H0 + (ep p + 1)) with (H0 + ep p + 1) by lia. assumption.
      * lia.
      * unfold ep, epos. lia.
      * rewrite Hc. unfold ep, epos. lia.
      * eapply H; eassumption.
    + destruct (jump0_ok it (hpart l lb) r Hh Hsp Hz) as (a & en & -> & Hn & Ep & Hok & Ha & Hc). cbn [bind]. rewrite Hn. cbn [bind].
      destruct (skip0_ok en a a (hpart l lb) r (hpart l lb - 512 * (hpart l lb / 512))) as (en' & E & Ep' & Hr); auto.
      * lia.
      * pose proof (Nat.mul_div_le (hpart l lb) 512 ltac:(lia)). lia.
      * eapply H in Hr; [|exact E|exact Ep']. cbn [bind] in Hr. exact Hr.
Qed.
Lemma next_geq_ok it p lb : ce_at it p -> (lb <= u)%N \/ p < n -> exists it', c_next_geq it lb = Ok it' /\ ce_at it' (ngeq vs lb).
Proof.
  intros Hat Hlb. pose proof Hat as [Hh Hp Hin Hout]. unfold c_next_geq. rewrite (proj2 (proj2 Hh)). fold l. pose proof Hl. rewrite !shr_ok by lia. cbn [bind].
  destruct ((c_val it <? lb)%N && (N.shiftr lb (N.of_nat l) - N.shiftr (c_val it) (N.of_nat l) <=? 8)%N) eqn:Ec.
  - apply andb_true_iff in Ec as [Ec _]. apply N.ltb_lt in Ec. rewrite c_size_ok by assumption. destruct (Nat.eq_dec p n) as [E|E].
    + exfalso. destruct (Hout E) as [_ Hv]. rewrite Hv in Ec. destruct Hlb; lia.
    + destruct (Hin ltac:(lia)) as (Ep & Ev & Hs). rewrite Ep. apply scan_ok; [assumption|lia|assumption|]. apply ngeq_gt; [apply X|fold n; lia|]. congruence.
  - apply (slow_next_geq_ok it p lb Hat). intros Hlt. apply andb_false_iff in Ec as [Ec|Ec]; [apply N.ltb_ge in Ec; lia|]. apply N.leb_gt in Ec. unfold hpart. lia.
Qed.

(** ** prev_value *)
Lemma prev_value_ok it p : ce_at it p -> c_prev_value it = Ok (if p =? 0 then 0%N else nth (p - 1) vs 0%N).
Proof.
  intros Hat. pose proof (at_pos _ _ Hat) as Ep. destruct Hat as [Hh Hp Hin Hout]. unfold c_prev_value. rewrite Ep, c_size_ok by assumption. destruct (Nat.eqb_spec p 0) as [|Hp0]; [reflexivity|].
  pose proof Hh as (E1 & E2 & E3). unfold c_fuel. rewrite E1, E3. pose proof Hend as He. pose proof (Hep (p - 1) ltac:(lia)) as Hpe.
  assert (E : predecessor1 ws (S (length ws)) (if p <? n then u_pos (c_en it) - 1 else o_low o - 1) = Ok (H0 + ep (p - 1))).
  { apply predecessor1_ok; [apply X| | |apply mark_bit; lia| |].
    - destruct (Nat.ltb_spec p n) as [L|L].
      + destruct (Hin L) as (_ & _ & -> & _). pose proof (Hep p L). lia.
      + rewrite (oo_low _ _ _ _ (cx_o _ _ _ _ _ _ X)). fold H0. lia.
    - destruct (Nat.ltb_spec p n) as [L|L].
      + destruct (Hin L) as (_ & _ & -> & _). pose proof (ep_mono (p - 1) p ltac:(lia) L). lia.
      + rewrite (oo_low _ _ _ _ (cx_o _ _ _ _ _ _ X)). fold H0. lia.
    - destruct (Nat.ltb_spec p n) as [L|L].
      + destruct (Hin L) as (_ & _ & -> & _). intros j Hj. apply (mark_gap (p - 1)); [lia|]. replace (p - 1 + 1) with p by lia. lia.
      + rewrite (oo_low _ _ _ _ (cx_o _ _ _ _ _ _ X)). fold H0. intros j Hj. replace j with (H0 + (j - H0)) by lia. rewrite <- g_bit by lia.
        apply (marks_last _ _ _ _ Hmarks); [lia|]. replace (n - 1) with (p - 1) by lia. lia.
    - match goal with |- ?x / 64 < _ => assert (x < 64 * length ws); [|pose proof (fuel_ok x 0 ltac:(assumption)); lia] end.
      destruct (Nat.ltb_spec p n) as [L|L].
      + destruct (Hin L) as (_ & _ & -> & _). pose proof (Hep p L). lia.
      + rewrite (oo_low _ _ _ _ (cx_o _ _ _ _ _ _ X)). fold H0. lia. }
  rewrite E. cbn [bind]. rewrite read_low_ok by (assumption || lia). cbn [bind]. apply value_ok; [assumption|lia].
Qed.

(** The iterator made by the constructor. *)
Lemma iterator_ok : ofs_new base u n = Ok o -> exists it, ce_iterator ws tail base u n = Ok it /\ ce_at it 0.
Proof.
  intros E. unfold ce_iterator. rewrite E. cbn [bind]. unfold c_access. cbn [c_pos Nat.ltb Nat.leb andb]. apply slow_access_ok; [repeat split|lia|cbn; lia].
Qed.
End It.
