(** compact_ef stores non-decreasing lists. *)
From Coq Require Import Sorted.
From Verif Require Import Base M_Trie S_Trie M_Word S_Bits P_Word M_Bits P_Bits P_Rank P_BitsRead P_BitsIter P_Marks P_EfSeq M_Iter S_Iter M_CompactEf.
Local Open Scope nat_scope.

(** ** The layout *)
Record ofs_ok (o : ofs) (base : nat) (u : N) (n : nat) : Prop := {
  oo_u : o_u o = u;
  oo_n : o_n o = n;
  oo_l : o_l o <= 55;
  oo_mask : o_mask o = N.ones (N.of_nat (o_l o));
  oo_hlen : o_hlen o = n + hpart (o_l o) u + 2;
  oo_ps : o_psize o <= 57;
  oo_ptr : (N.of_nat (o_hlen o) <= 2 ^ N.of_nat (o_psize o))%N;
  oo_p0 : o_p0 o = base;
  oo_p1 : o_p1 o = o_p0 o + (o_hlen o - n) / 512 * o_psize o;
  oo_high : o_high o = o_p1 o + n / 256 * o_psize o;
  oo_low : o_low o = o_high o + o_hlen o;
  oo_end : o_end o = o_low o + n * o_l o
}.
Definition small (x : N) : Prop := (x < 2 ^ 55)%N.
Lemma ofs_new_ok base u n : small u -> small (N.of_nat n) -> 0 < n -> exists o, ofs_new base u n = Ok o /\ ofs_ok o base u n.
Proof.
  unfold small. intros Hu Hn H0. unfold ofs_new.
  assert (Hl : exists l, (if (N.of_nat n <? u)%N then if n =? 0 then UB else msb (u / N.of_nat n) else Ok 0) = Ok l /\ l <= 55).
  { destruct (N.ltb_spec (N.of_nat n) u) as [L|L]; [|exists 0; split; [reflexivity|lia]]. destruct (Nat.eqb_spec n 0); [lia|].
    assert (Hq1 : (1 <= u / N.of_nat n)%N) by (apply N.div_le_lower_bound; lia).
    assert (Hq : (u / N.of_nat n <= u)%N) by (apply N.div_le_upper_bound; [lia|nia]).
    remember (u / N.of_nat n)%N as q eqn:Eq. clear Eq. assert (q < W64)%N by (rewrite W64_pow; assert (2 ^ 55 < 2 ^ 64)%N by reflexivity; lia).
    rewrite msb_log by lia. eexists; split; [reflexivity|]. assert (N.log2 q < 55)%N; [|lia]. apply N.log2_lt_pow2; lia. }
  destruct Hl as (l & -> & Hl). cbn [bind]. rewrite shl_ok by lia. cbn [bind]. rewrite shr_ok by lia. cbn [bind]. fold (hpart l u).
  assert (Hh : (N.of_nat (hpart l u) <= u)%N).
  { unfold hpart. rewrite N2Nat.id, N.shiftr_div_pow2. apply N.div_le_upper_bound; [apply N.pow_nonzero; discriminate|].
    assert (2 ^ N.of_nat l <> 0)%N by (apply N.pow_nonzero; discriminate). nia. }
  set (hlen := n + hpart l u + 2). assert (Hhl : (N.of_nat hlen <= 2 ^ 57)%N).
  { unfold hlen. assert (2 ^ 55 + 2 ^ 55 + 2 <= 2 ^ 57)%N by (vm_compute; discriminate). lia. }
  destruct (ceil_log2_w_ok (N.of_nat hlen)) as (ps & -> & Hps & Hmin); [rewrite W64_pow; assert (2 ^ 57 < 2 ^ 64)%N by reflexivity; lia|].
  cbn [bind]. eexists; split; [reflexivity|]. split; cbn [o_u o_n o_l o_mask o_hlen o_psize o_p0 o_p1 o_high o_low o_end]; auto.
  apply mask_ones. lia.
Qed.

(** ** What the bits mean *)
Definition epos (l : nat) (vs : list N) (i : nat) : nat := hpart l (nth i vs 0%N) + i + 1.
Definition slot (f : nat -> bool) (off w : nat) (x : N) : Prop := forall c, c < w -> f (off + c) = tb x c.
(** Exactly the first r values have a high part below z. *)
Definition split_at (l : nat) (vs : list N) (z r : nat) : Prop :=
  r <= length vs /\ (forall k, k < r -> hpart l (nth k vs 0%N) < z) /\ (forall k, r <= k -> k < length vs -> z <= hpart l (nth k vs 0%N)).

Definition hbit (f : nat -> bool) (o : ofs) (j : nat) : bool := (j <? o_hlen o) && f (o_high o + j).
Definition cHigh (f : nat -> bool) (o : ofs) (vs : list N) (m : nat) : Prop := marks (hbit f o) (epos (o_l o) vs) m.
Definition cLow (f : nat -> bool) (o : ofs) (vs : list N) (m : nat) : Prop :=
  forall i, i < m -> slot f (o_low o + i * o_l o) (o_l o) (nth i vs 0%N).
Definition cP1 (f : nat -> bool) (o : ofs) (vs : list N) (m : nat) : Prop :=
  forall t, 0 < t -> 256 * t < m -> slot f (o_p1 o + (t - 1) * o_psize o) (o_psize o) (N.of_nat (epos (o_l o) vs (256 * t))).
Definition cP0 (f : nat -> bool) (o : ofs) (vs : list N) (P : nat -> Prop) : Prop :=
  forall z, 0 < z -> P z -> exists r, split_at (o_l o) vs (512 * z) r /\
    slot f (o_p0 o + (z - 1) * o_psize o) (o_psize o) (N.of_nat (512 * z + r)).

Lemma marks_fext f g h n : marks f h n -> (forall j, f j = g j) -> marks g h n.
Proof. intros [H1 H2] E. split; [assumption|]. intros p. rewrite <- E. apply H2. Qed.
Lemma slot_ext f g off w x : slot f off w x -> (forall j, off <= j < off + w -> f j = g j) -> slot g off w x.
Proof. intros H E c Hc. rewrite <- E by lia. now apply H. Qed.
Lemma cHigh_ext f g o vs m : cHigh f o vs m -> (forall j, o_high o <= j < o_high o + o_hlen o -> f j = g j) -> cHigh g o vs m.
Proof. intros H E. eapply marks_fext; [apply H|]. intros j. unfold hbit. destruct (Nat.ltb_spec j (o_hlen o)); [|reflexivity]. rewrite E by lia. reflexivity. Qed.
Lemma cLow_ext f g o vs m n : m <= n -> cLow f o vs m -> (forall j, o_low o <= j < o_low o + n * o_l o -> f j = g j) -> cLow g o vs m.
Proof. intros Hm H E i Hi. eapply slot_ext; [now apply H|]. intros j Hj. apply E. pose proof (Nat.mul_le_mono_r (i + 1) n (o_l o) ltac:(lia)). lia. Qed.
Lemma ptr_in t n w : 0 < t -> t <= n -> (t - 1) * w + w <= n * w.
Proof. intros H1 H2. pose proof (Nat.mul_le_mono_r t n w H2). replace ((t - 1) * w) with (t * w - w); [nia|]. rewrite Nat.mul_sub_distr_r. lia. Qed.
Lemma cP1_ext f g o vs m n : m <= n -> cP1 f o vs m -> (forall j, o_p1 o <= j < o_p1 o + n / 256 * o_psize o -> f j = g j) -> cP1 g o vs m.
Proof.
  intros Hm H E t Ht Htm. eapply slot_ext; [now apply H|]. intros j Hj. apply E.
  pose proof (ptr_in t (n / 256) (o_psize o) Ht ltac:(apply Nat.div_le_lower_bound; lia)) as Hin.
  remember ((t - 1) * o_psize o) as a. remember (n / 256 * o_psize o) as c. lia.
Qed.
Lemma cP0_ext f g o vs (P : nat -> Prop) Z : (forall z, 0 < z -> P z -> 512 * z <= Z) -> cP0 f o vs P ->
  (forall j, o_p0 o <= j < o_p0 o + Z / 512 * o_psize o -> f j = g j) -> cP0 g o vs P.
Proof.
  intros HP H E z Hz Hp. destruct (H z Hz Hp) as (r & Hr & Hs). exists r. split; [assumption|]. eapply slot_ext; [apply Hs|]. intros j Hj. apply E.
  pose proof (ptr_in z (Z / 512) (o_psize o) Hz ltac:(apply Nat.div_le_lower_bound; [lia|now apply HP])) as Hin.
  remember ((z - 1) * o_psize o) as a. remember (Z / 512 * o_psize o) as c. lia.
Qed.

(** ** Building *)
Definition bt (L : list bool) (j : nat) : bool := nth j L false.
Lemma bits_slot w x off f : (forall j, off <= j < off + w -> f j = nth (j - off) (bits_of w x) false) -> slot f off w x.
Proof. intros H c Hc. rewrite H by lia. replace (off + c - off) with c by lia. rewrite nth_bits_of. destruct (Nat.ltb_spec c w); [reflexivity|lia]. Qed.
Lemma overwrite_slot L off w x : off + w <= length L ->
  slot (bt (overwrite L off (bits_of w x))) off w x /\ (forall j, ~ off <= j < off + w -> bt (overwrite L off (bits_of w x)) j = bt L j) /\
  length (overwrite L off (bits_of w x)) = length L.
Proof.
  intros H. assert (Hl : off + length (bits_of w x) <= length L) by now rewrite bits_of_length. split; [|split].
  - apply bits_slot. intros j Hj. unfold bt. rewrite overwrite_nth, bits_of_length by assumption.
    destruct (Nat.leb_spec off j), (Nat.ltb_spec j (off + w)); try (exfalso; lia); reflexivity.
  - intros j Hj. unfold bt. rewrite overwrite_nth, bits_of_length by assumption.
    destruct (Nat.leb_spec off j), (Nat.ltb_spec j (off + w)); try (exfalso; lia); reflexivity.
  - now apply overwrite_length.
Qed.
Lemma put_slot b L off w x : bvb_ok b L -> w <= 64 -> (x < 2 ^ N.of_nat w)%N -> off + w <= length L ->
  exists b' L', bvb_set_bits b off x w = Ok b' /\ bvb_ok b' L' /\ slot (bt L') off w x /\
    (forall j, ~ off <= j < off + w -> bt L' j = bt L j) /\ length L' = length L.
Proof.
  intros H Hw Hx Hl. destruct (set_bits_ok b L off x w H Hw Hx Hl) as (b' & E & H'). exists b', (overwrite L off (bits_of w x)).
  destruct (overwrite_slot L off w x Hl) as (H1 & H2 & H3). auto.
Qed.

Lemma set_ptr0s_ok o base u vs b L begin_ end_ r : ofs_ok o base u (length vs) -> bvb_ok b L -> length L = o_end o ->
  r <= length vs -> end_ - r <= o_hlen o - length vs ->
  (forall z, begin_ - r <= 512 * z -> 512 * z < end_ - r -> split_at (o_l o) vs (512 * z) r) ->
  cP0 (bt L) o vs (fun z => 512 * z < begin_ - r) -> begin_ - r <= end_ - r ->
  exists b' L', set_ptr0s o b begin_ end_ r = Ok b' /\ bvb_ok b' L' /\ length L' = length L /\
    (forall j, ~ o_p0 o <= j < o_p1 o -> bt L' j = bt L j) /\ cP0 (bt L') o vs (fun z => 512 * z < end_ - r).
Proof.
  intros Ho Hb HL Hr Hend Hsp H0 Hbe. unfold set_ptr0s. set (bz := begin_ - r) in *. set (ez := end_ - r) in *.
  destruct (loop_ok (ptr0_step o ez r)
    (fun '(z, b') => (ez <= 512 * (z - 1) -> z <= (bz + 511) / 512) /\ (bz + 511) / 512 <= z /\ exists L', bvb_ok b' L' /\ length L' = length L /\ (forall j, ~ o_p0 o <= j < o_p1 o -> bt L' j = bt L j) /\
        cP0 (bt L') o vs (fun t => t < z))
    (fun '(z, _) => ez - z)
    (fun b' => exists L', bvb_ok b' L' /\ length L' = length L /\ (forall j, ~ o_p0 o <= j < o_p1 o -> bt L' j = bt L j) /\
        cP0 (bt L') o vs (fun t => 512 * t < ez))) with (fuel := S (S ez)) (s := ((bz + 511) / 512, b)) as (b' & E & L' & H).
  - intros (z, b') (Hz1 & Hz & L' & Hb' & HL' & Hout & Hp). unfold ptr0_step.
    pose proof (Nat.div_mod (bz + 511) 512 ltac:(lia)) as Edm. pose proof (Nat.mod_upper_bound (bz + 511) 512 ltac:(lia)) as Hdm.
    assert (Hzb : bz <= 512 * z) by lia.
    destruct (Nat.ltb_spec (512 * z) ez) as [L1|L1].
    + destruct (Nat.eqb_spec z 0) as [->|Hz0].
      * split; [|lia]. split; [lia|]. split; [lia|]. exists L'. split; [assumption|]. split; [assumption|]. split; [assumption|].
        intros t Ht Htz. cbn beta in Htz. lia.
      * pose proof (Hsp z Hzb L1) as Hs.
        assert (Hin : (z - 1) * o_psize o + o_psize o <= (o_hlen o - length vs) / 512 * o_psize o) by (apply ptr_in; [lia|apply Nat.div_le_lower_bound; lia]).
        pose proof (oo_p1 _ _ _ _ Ho) as Ep1. pose proof (oo_high _ _ _ _ Ho). pose proof (oo_low _ _ _ _ Ho). pose proof (oo_end _ _ _ _ Ho). pose proof (oo_ptr _ _ _ _ Ho). pose proof (oo_ps _ _ _ _ Ho).
        pose proof (oo_hlen _ _ _ _ Ho).
        remember ((z - 1) * o_psize o) as a eqn:Ea. remember ((o_hlen o - length vs) / 512 * o_psize o) as c. remember (length vs / 256 * o_psize o) as d. remember (length vs * o_l o) as e.
        destruct (put_slot b' L' (o_p0 o + a) (o_psize o) (N.of_nat (512 * z + r)) Hb') as (b'' & L'' & -> & Hb'' & Hslot & Hout' & HL''); [lia|lia|lia|].
        cbn [bind]. split; [|lia]. split; [lia|]. split; [lia|]. exists L''. split; [assumption|]. split; [lia|]. split.
        -- intros j Hj. rewrite Hout'; [now apply Hout|lia].
        -- intros t Ht Htz. destruct (Nat.eq_dec t z) as [->|Hne]; [exists r; split; [assumption|]; rewrite <- Ea; assumption|].
           pose proof (ptr_in t (z - 1) (o_psize o) Ht ltac:(lia)) as Hin'. rewrite <- Ea in Hin'.
           assert (Htz' : t < z) by (cbn beta in Htz; lia). destruct (Hp t Ht Htz') as (r' & Hr' & Hsl). exists r'. split; [assumption|]. eapply slot_ext; [apply Hsl|].
           intros j Hj. symmetry. apply Hout'. remember ((t - 1) * o_psize o) as a'. lia.
    + exists L'. split; [assumption|]. split; [assumption|]. split; [assumption|]. intros t Ht Hte. cbn beta in Hte. apply Hp; [lia|]. cbn beta. lia.
  - split; [lia|]. split; [lia|]. exists L. split; [assumption|]. split; [reflexivity|]. split; [reflexivity|]. intros t Ht Htz. apply H0; [assumption|]. cbn beta in *.
    pose proof (Nat.div_mod (bz + 511) 512 ltac:(lia)) as Edm. pose proof (Nat.mod_upper_bound (bz + 511) 512 ltac:(lia)) as Hdm. lia.
  - cbn beta iota. lia.
  - exists b', L'. split; [assumption|]. assumption.
Qed.

(** After i values: everything about them, and pointers to the zeros before the last one. *)
Record laid (f : nat -> bool) (o : ofs) (vs : list N) (m Z : nat) : Prop := {
  la_high : cHigh f o vs m;
  la_low : cLow f o vs m;
  la_p1 : cP1 f o vs m;
  la_p0 : cP0 f o vs (fun z => 512 * z < Z)
}.
Lemma laid_ext f g o base u vs m Z : ofs_ok o base u (length vs) -> m <= length vs -> Z <= o_hlen o - length vs -> laid f o vs m Z ->
  (forall j, o_p0 o <= j < o_end o -> f j = g j) -> laid g o vs m Z.
Proof.
  intros Ho Hm HZ [H1 H2 H3 H4] E. pose proof (oo_p1 _ _ _ _ Ho) as E1. pose proof (oo_high _ _ _ _ Ho) as E2. pose proof (oo_low _ _ _ _ Ho) as E3. pose proof (oo_end _ _ _ _ Ho) as E4.
  remember ((o_hlen o - length vs) / 512 * o_psize o) as c eqn:Ec. remember (length vs / 256 * o_psize o) as d eqn:Ed. remember (length vs * o_l o) as e eqn:Ee. split.
  - eapply cHigh_ext; [eassumption|]. intros j Hj. apply E. lia.
  - eapply cLow_ext; [eassumption|eassumption|]. rewrite <- Ee. intros j Hj. apply E. lia.
  - eapply cP1_ext; [eassumption|eassumption|]. rewrite <- Ed. intros j Hj. apply E. lia.
  - eapply (cP0_ext _ _ _ _ _ (o_hlen o - length vs)); [|eassumption|]. { intros z _ Hz. cbn beta in Hz. lia. } rewrite <- Ec. intros j Hj. apply E. lia.
Qed.
Definition last_at (l : nat) (vs : list N) (i : nat) : nat := if i =? 0 then 0 else epos l vs (i - 1).
Definition zeros_at (l : nat) (vs : list N) (i : nat) : nat := last_at l vs i + 1 - i.
Lemma epos_inc l vs i j : nondec vs -> i < j -> j < length vs -> epos l vs i < epos l vs j.
Proof. intros H Hij Hj. unfold epos. pose proof (hpart_mono l _ _ (H i j ltac:(lia) Hj)). lia. Qed.
Lemma epos_in o base u vs i : ofs_ok o base u (length vs) -> Forall (fun v => (v < u)%N) vs -> i < length vs -> epos (o_l o) vs i + 1 < o_hlen o.
Proof.
  intros Ho Hu Hi. rewrite (oo_hlen _ _ _ _ Ho). unfold epos. assert (nth i vs 0 < u)%N by (apply (proj1 (Forall_forall _ _) Hu), nth_In; assumption).
  pose proof (hpart_mono (o_l o) (nth i vs 0%N) u ltac:(lia)). lia.
Qed.

Lemma cHigh_set o base u vs L i : ofs_ok o base u (length vs) -> nondec vs -> Forall (fun v => (v < u)%N) vs -> i < length vs -> length L = o_end o ->
  cHigh (bt L) o vs i -> cHigh (bt (upd L (o_high o + epos (o_l o) vs i) true)) o vs (i + 1).
Proof.
  intros Ho Hnd Hu Hi HL [Hinc Hiff]. pose proof (epos_in o base u vs i Ho Hu Hi) as Hin. pose proof (oo_low _ _ _ _ Ho). pose proof (oo_end _ _ _ _ Ho).
  split.
  - intros a b Hab Hb. apply epos_inc; [assumption|assumption|lia].
  - intros p. unfold hbit, bt. rewrite upd_nth. destruct (Nat.ltb_spec (o_high o + epos (o_l o) vs i) (length L)) as [_|]; [|lia]. rewrite andb_true_r.
    destruct (Nat.eqb_spec (o_high o + epos (o_l o) vs i) (o_high o + p)) as [E|E].
    + assert (p = epos (o_l o) vs i) as -> by lia. destruct (Nat.ltb_spec (epos (o_l o) vs i) (o_hlen o)); [|lia]. split; [|reflexivity]. intros _. exists i. split; [lia|reflexivity].
    + specialize (Hiff p). unfold hbit, bt in Hiff. rewrite Hiff. split; intros (k & Hk & Ek); exists k; (split; [|assumption]); [lia|].
      destruct (Nat.eq_dec k i) as [->|]; [exfalso; lia|lia].
Qed.

Lemma ce_fill_ok o base u all : ofs_ok o base u (length all) -> nondec all -> Forall (fun v => (v < u)%N) all ->
  forall vs i b L, skipn i all = vs -> i <= length all -> bvb_ok b L -> length L = o_end o -> laid (bt L) o all i (zeros_at (o_l o) all i) ->
  exists b' L', ce_fill o vs i (if i =? 0 then 0%N else nth (i - 1) all 0%N) (last_at (o_l o) all i) b = Ok (b', last_at (o_l o) all (length all)) /\
    bvb_ok b' L' /\ length L' = length L /\ (forall j, j < base -> bt L' j = bt L j) /\
    laid (bt L') o all (length all) (zeros_at (o_l o) all (length all)).
Proof.
  intros Ho Hnd Hu. induction vs as [|v vs IH]; intros i b L Hsk Hi Hb HL Hla; cbn [ce_fill].
  - assert (i = length all) as ->. { apply (f_equal (@length N)) in Hsk. rewrite skipn_length in Hsk. cbn in Hsk. lia. }
    exists b, L. auto.
  - assert (Hin : i < length all). { apply (f_equal (@length N)) in Hsk. rewrite skipn_length in Hsk. cbn in Hsk. lia. }
    assert (Ev : nth i all 0%N = v). { rewrite <- (firstn_skipn i all), Hsk, app_nth2; rewrite firstn_length_le by lia; [|lia]. now rewrite Nat.sub_diag. }
    assert (Hsk' : skipn (i + 1) all = vs).
    { assert (E : skipn 1 (skipn i all) = vs) by now rewrite Hsk. rewrite skipn_skipn in E. rewrite Nat.add_comm. assumption. }
    assert (Hlast : (0 <? i) && (v <? (if (i =? 0)%nat then 0 else nth (i - 1)%nat all 0))%N = false).
    { destruct (Nat.eqb_spec i 0) as [->|]; [reflexivity|]. apply andb_false_iff. right. apply N.ltb_ge. rewrite <- Ev. apply Hnd; lia. }
    rewrite Hlast. pose proof (oo_l _ _ _ _ Ho) as Hl. rewrite shr_ok by lia. cbn [bind]. fold (hpart (o_l o) v).
    set (l := o_l o) in *.
    replace (hpart l v + i + 1) with (epos l all i) by (unfold epos; now rewrite Ev).
    pose proof (epos_in o base u all i Ho Hu Hin) as Hein. fold l in Hein.
    pose proof (oo_p0 _ _ _ _ Ho) as E0. pose proof (oo_p1 _ _ _ _ Ho) as E1. pose proof (oo_high _ _ _ _ Ho) as E2. pose proof (oo_low _ _ _ _ Ho) as E3. pose proof (oo_end _ _ _ _ Ho) as E4. fold l in E4.
    remember ((o_hlen o - length all) / 512 * o_psize o) as c eqn:Ec. remember (length all / 256 * o_psize o) as d eqn:Ed. remember (length all * l) as e eqn:Ee.
    pose proof (ptr_in (i + 1) (length all) l ltac:(lia) ltac:(lia)) as Hlow. replace (i + 1 - 1) with i in Hlow by lia. rewrite <- Ee in Hlow. remember (i * l) as il eqn:Eil.
    destruct (set_ok_bit b L (o_high o + epos l all i) true Hb ltac:(lia)) as (b1 & -> & Hb1). cbn [bind]. set (L1 := upd L (o_high o + epos l all i) true) in *.
    assert (HL1 : length L1 = length L) by apply upd_length.
    assert (Ho1 : forall j, j <> o_high o + epos l all i -> bt L1 j = bt L j).
    { intros j Hj. unfold bt, L1. rewrite upd_nth. destruct (Nat.eqb_spec (o_high o + epos l all i) j); [congruence|reflexivity]. }
    pose proof (cHigh_set o base u all L i Ho Hnd Hu Hin HL (la_high _ _ _ _ _ Hla)) as Hh1. fold l L1 in Hh1.
    rewrite (oo_mask _ _ _ _ Ho). fold l. rewrite N.land_ones.
    destruct (put_slot b1 L1 (o_low o + il) l (v mod 2 ^ N.of_nat l)%N Hb1) as (b2 & L2 & -> & Hb2 & Hs2 & Ho2 & HL2); [lia|apply N.mod_upper_bound, N.pow_nonzero; discriminate|lia|]. cbn [bind].
    assert (H3 : exists b3 L3, (if (0 <? i) && (i mod 256 =? 0) then bvb_set_bits b2 (o_p1 o + (i / 256 - 1) * o_psize o) (N.of_nat (epos l all i)) (o_psize o) else Ok b2) = Ok b3 /\
       bvb_ok b3 L3 /\ length L3 = length L2 /\ (forall j, ~ o_p1 o <= j < o_high o -> bt L3 j = bt L2 j) /\ cP1 (bt L3) o all (i + 1)).
    { assert (Hp1 : cP1 (bt L2) o all i).
      { eapply (cP1_ext _ _ _ _ _ (length all)); [|apply (la_p1 _ _ _ _ _ Hla)|]; [lia|]. intros j Hj. rewrite <- Ed in Hj. rewrite Ho2, Ho1 by lia. reflexivity. }
      pose proof (Nat.div_mod i 256 ltac:(lia)) as Edm. pose proof (Nat.mod_upper_bound i 256 ltac:(lia)) as Hdm.
      destruct (Nat.ltb_spec 0 i) as [P0|P0]; cbn [andb]; [destruct (Nat.eqb_spec (i mod 256) 0) as [P1|P1]|].
      - pose proof (ptr_in (i / 256) (length all / 256) (o_psize o) ltac:(lia) ltac:(apply Nat.div_le_mono; lia)) as Hptr. rewrite <- Ed in Hptr.
        remember ((i / 256 - 1) * o_psize o) as a eqn:Ea.
        pose proof (oo_ptr _ _ _ _ Ho). pose proof (oo_ps _ _ _ _ Ho).
        destruct (put_slot b2 L2 (o_p1 o + a) (o_psize o) (N.of_nat (epos l all i)) Hb2) as (b3 & L3 & E & Hb3 & Hs3 & Ho3 & HL3); [lia|lia|lia|].
        exists b3, L3. split; [assumption|]. split; [assumption|]. split; [assumption|]. split; [intros j Hj; apply Ho3; lia|].
        intros t Ht Hti. destruct (Nat.eq_dec (256 * t) i) as [Eti|Hne].
        + assert (t = i / 256) as -> by lia. rewrite <- Ea, Eti. assumption.
        + eapply slot_ext; [apply (Hp1 t Ht); lia|]. intros j Hj. symmetry. apply Ho3.
          pose proof (ptr_in t (i / 256 - 1) (o_psize o) Ht ltac:(lia)) as Hptr'. rewrite <- Ea in Hptr'. remember ((t - 1) * o_psize o) as a'. lia.
      - exists b2, L2. split; [reflexivity|]. split; [assumption|]. split; [reflexivity|]. split; [reflexivity|]. intros t Ht Hti. apply Hp1; [assumption|].
        destruct (Nat.eq_dec (256 * t) i) as [Eti|Hne]; [|lia]. exfalso. apply P1. rewrite <- Eti, Nat.mul_comm. apply Nat.mod_mul. lia.
      - exists b2, L2. split; [reflexivity|]. split; [assumption|]. split; [reflexivity|]. split; [reflexivity|]. intros t Ht Hti. lia. }
    destruct H3 as (b3 & L3 & -> & Hb3 & HL3 & Ho3 & Hp3). cbn [bind].
    pose proof (oo_hlen _ _ _ _ Ho) as Ehl. fold l in Ehl.
    assert (Hlp : hpart l (nth i all 0%N) <= hpart l u). { apply hpart_mono. assert (nth i all 0 < u)%N by (apply (proj1 (Forall_forall _ _) Hu), nth_In; assumption). lia. }
    assert (Hprev : 0 < i -> hpart l (nth (i - 1) all 0%N) <= hpart l (nth i all 0%N)) by (intros; apply hpart_mono, Hnd; lia).
    assert (Hz : zeros_at l all i = if i =? 0 then 1 else hpart l (nth (i - 1) all 0%N) + 1).
    { unfold zeros_at, last_at, epos. destruct (Nat.eqb_spec i 0) as [->|]; [reflexivity|lia]. }
    destruct (set_ptr0s_ok o base u all b3 L3 (last_at l all i + 1) (epos l all i) i Ho Hb3) as (b4 & L4 & -> & Hb4 & HL4 & Ho4 & Hp4).
    + lia.
    + lia.
    + unfold epos. lia.
    + intros z Hz1 Hz2. fold (zeros_at l all i) in Hz1. rewrite Hz in Hz1. unfold epos in Hz2. fold l. split; [lia|]. split.
      * intros k Hk. destruct (Nat.eqb_spec i 0); [lia|]. pose proof (hpart_mono l _ _ (Hnd k (i - 1) ltac:(lia) ltac:(lia))). lia.
      * intros k Hk Hkn. pose proof (hpart_mono l _ _ (Hnd i k ltac:(lia) ltac:(lia))). lia.
    + fold (zeros_at l all i). eapply (cP0_ext _ _ _ _ _ (o_hlen o - length all)); [|apply (la_p0 _ _ _ _ _ Hla)|].
      * intros z Hz0 Hz1. cbn beta in Hz1. fold l in Hz1. rewrite Hz in Hz1. destruct (Nat.eqb_spec i 0); lia.
      * intros j Hj. rewrite <- Ec in Hj. rewrite Ho3, Ho2, Ho1 by lia. reflexivity.
    + fold (zeros_at l all i). rewrite Hz. unfold epos. destruct (Nat.eqb_spec i 0); lia.
    + cbn [bind]. destruct (IH (i + 1) b4 L4 Hsk' ltac:(lia) Hb4 ltac:(lia)) as (b5 & L5 & E5 & Hb5 & HL5 & Hpre & Hla5).
      * split.
        -- eapply cHigh_ext; [apply Hh1|]. intros j Hj. rewrite Ho4, Ho3, Ho2 by lia. reflexivity.
        -- intros k Hk. fold l. destruct (Nat.eq_dec k i) as [->|Hne].
           ++ rewrite Ev, <- Eil. intros x Hx. rewrite Ho4, Ho3 by lia. rewrite Hs2 by assumption. rewrite tb_mod_pow. destruct (Nat.ltb_spec x l); [reflexivity|lia].
           ++ pose proof (la_low _ _ _ _ _ Hla k ltac:(lia)) as Hk'. fold l in Hk'.
              pose proof (ptr_in (k + 1) i l ltac:(lia) ltac:(lia)) as Hkl. replace (k + 1 - 1) with k in Hkl by lia. rewrite <- Eil in Hkl. remember (k * l) as kl eqn:Ekl.
              eapply slot_ext; [apply Hk'|]. intros j Hj. rewrite Ho4, Ho3, Ho2, Ho1 by lia. reflexivity.
        -- eapply (cP1_ext _ _ _ _ _ (length all)); [|apply Hp3|]; [lia|]. intros j Hj. rewrite <- Ed in Hj. rewrite Ho4 by lia. reflexivity.
        -- fold l. replace (zeros_at l all (i + 1)) with (epos l all i - i); [exact Hp4|]. unfold zeros_at, last_at. destruct (Nat.eqb_spec (i + 1) 0); [lia|].
           replace (i + 1 - 1) with i by lia. lia.
      * exists b5, L5. rewrite <- E5. split.
        -- destruct (Nat.eqb_spec (i + 1) 0); [lia|]. replace (i + 1 - 1) with i by lia. rewrite Ev. f_equal. unfold last_at. destruct (Nat.eqb_spec (i + 1) 0); [lia|].
           replace (i + 1 - 1) with i by lia. reflexivity.
        -- split; [assumption|]. split; [lia|]. split; [|assumption]. intros j Hj. rewrite Hpre, Ho4, Ho3, Ho2, Ho1 by lia. reflexivity.
Qed.

Lemma ce_build_ok b L u vs : bvb_ok b L -> vs <> [] -> nondec vs -> Forall (fun v => (v < u)%N) vs -> small u -> small (N.of_nat (length vs)) ->
  exists o b' M, ofs_new (length L) u (length vs) = Ok o /\ ofs_ok o (length L) u (length vs) /\ ce_build b u vs = Ok b' /\ bvb_ok b' (L ++ M) /\
    length (L ++ M) = o_end o /\ laid (bt (L ++ M)) o vs (length vs) (o_hlen o - length vs).
Proof.
  intros Hb Hne Hnd Hu Hus Hns. assert (Hn : 0 < length vs) by (destruct vs; [congruence|cbn; lia]).
  destruct (ofs_new_ok (length L) u (length vs) Hus Hns Hn) as (o & E & Ho). exists o. unfold ce_build. rewrite (bo_size _ _ Hb), E. cbn [bind].
  pose proof (oo_p0 _ _ _ _ Ho) as E0. pose proof (oo_p1 _ _ _ _ Ho) as E1. pose proof (oo_high _ _ _ _ Ho) as E2. pose proof (oo_low _ _ _ _ Ho) as E3. pose proof (oo_end _ _ _ _ Ho) as E4.
  remember ((o_hlen o - length vs) / 512 * o_psize o) as c eqn:Ec. remember (length vs / 256 * o_psize o) as d eqn:Ed. remember (length vs * o_l o) as e eqn:Ee.
  assert (Hend : length L <= o_end o) by lia.
  pose proof (zero_extend_ok b L (o_end o - length L) Hb) as Hb1. set (L1 := L ++ repeat false (o_end o - length L)) in *.
  assert (HL1 : length L1 = o_end o) by (unfold L1; rewrite app_length, repeat_length; lia).
  destruct (ce_fill_ok o (length L) u vs Ho Hnd Hu vs 0 (bvb_zero_extend b (o_end o - length L)) L1 eq_refl ltac:(lia) Hb1 HL1) as (b2 & L2 & E5 & Hb2 & HL2 & Hpre & Hla).
  - split.
    + split; [lia|]. intros p. split; [|intros (k & Hk & _); lia]. unfold hbit, bt, L1. intros H. apply andb_true_iff in H as [_ H]. rewrite app_nth2 in H by lia.
      rewrite nth_repeat_if in H. destruct (_ <? _); discriminate.
    + intros i Hi. lia.
    + intros t Ht Hti. lia.
    + intros z Hz H. cbn beta in H. unfold zeros_at, last_at in H. cbn in H. lia.
  - change (last_at (o_l o) vs 0) with 0 in E5. cbn [Nat.eqb] in E5. rewrite E5. cbn [bind]. clear E5.
    pose proof (oo_hlen _ _ _ _ Ho) as Ehl.
    assert (Hz : zeros_at (o_l o) vs (length vs) = hpart (o_l o) (nth (length vs - 1) vs 0%N) + 1).
    { unfold zeros_at, last_at, epos. destruct (Nat.eqb_spec (length vs) 0); lia. }
    assert (Hlp : hpart (o_l o) (nth (length vs - 1) vs 0%N) <= hpart (o_l o) u).
    { apply hpart_mono. assert (nth (length vs - 1) vs 0 < u)%N by (apply (proj1 (Forall_forall _ _) Hu), nth_In; lia). lia. }
    destruct (set_ptr0s_ok o (length L) u vs b2 L2 (last_at (o_l o) vs (length vs) + 1) (o_hlen o) (length vs) Ho Hb2) as (b3 & L3 & -> & Hb3 & HL3 & Ho3 & Hp3).
    + lia.
    + lia.
    + lia.
    + intros z Hz1 Hz2. fold (zeros_at (o_l o) vs (length vs)) in Hz1. rewrite Hz in Hz1. split; [lia|]. split; [|intros; lia].
      intros k Hk. pose proof (hpart_mono (o_l o) _ _ (Hnd k (length vs - 1) ltac:(lia) ltac:(lia))). lia.
    + apply (la_p0 _ _ _ _ _ Hla).
    + fold (zeros_at (o_l o) vs (length vs)). rewrite Hz. lia.
    + exists b3, (skipn (length L) L3).
      assert (EL : L ++ skipn (length L) L3 = L3).
      { rewrite <- (firstn_skipn (length L) L3) at 2. f_equal. apply nth_ext with (d := false) (d' := false); [rewrite firstn_length; lia|].
        intros j Hj. rewrite nth_firstn_if. destruct (Nat.ltb_spec j (length L)); [|lia]. change (nth j L3 false) with (bt L3 j). rewrite Ho3, Hpre by lia.
        unfold bt, L1. rewrite app_nth1 by lia. reflexivity. }
      rewrite EL. split; [reflexivity|]. split; [assumption|]. split; [reflexivity|]. split; [assumption|]. split; [lia|].
      split.
      * eapply cHigh_ext; [apply Hla|]. intros j Hj. symmetry. apply Ho3. lia.
      * eapply (cLow_ext _ _ _ _ _ (length vs)); [lia|apply Hla|]. rewrite <- Ee. intros j Hj. symmetry. apply Ho3. lia.
      * eapply (cP1_ext _ _ _ _ _ (length vs)); [lia|apply Hla|]. rewrite <- Ed. intros j Hj. symmetry. apply Ho3. lia.
      * assumption.
Qed.
