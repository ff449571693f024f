(** Proofs about M_Uncomp. *)
From Coq Require Import Sorted.
From Verif Require Import Base M_Iter S_Iter M_Trie M_Word S_Bits P_Word M_Bits P_Bits P_BitsRead P_BitsIter M_Codes S_Codes P_Codes P_EfSeq M_EfSeq M_InvIndex P_Records P_InvIndex P_Intersect M_Uncomp S_Uncomp.
Local Open Scope nat_scope.

(** ** Loads *)
Lemma byte_at_get v o : byte_at (v_words v) o = bv_get_bits v (8 * o) 8.
Proof.
  unfold byte_at, bv_get_bits, read_bits. cbn [Nat.eqb]. change (mask_of 8) with (@Ok N 255%N). cbn [bind].
  assert (E1 : 8 * o / 64 = o / 8) by (change 64 with (8 * 8); rewrite Nat.div_mul_cancel_l by lia; reflexivity).
  assert (E2 : (8 * o) mod 64 = 8 * (o mod 8)) by (change 64 with (8 * 8); rewrite Nat.mul_mod_distr_l by lia; reflexivity).
  rewrite E1, E2. pose proof (Nat.mod_upper_bound o 8 ltac:(lia)). destruct (Nat.leb_spec (8 * (o mod 8) + 8) 64); [reflexivity|lia].
Qed.
Lemma number_app a b : number (a ++ b) = (number a + 2 ^ N.of_nat (length a) * number b)%N.
Proof.
  induction a as [|x a IH]; [cbn [number app length]; change (2 ^ N.of_nat 0)%N with 1%N; lia|]. cbn [number app length]. rewrite IH, Nat2N.inj_succ, N.pow_succ_r'. lia.
Qed.
Lemma skipn_plus {A} a b (l : list A) : skipn (a + b) l = skipn b (skipn a l).
Proof. revert l. induction a as [|a IH]; intros l; [reflexivity|]. destruct l; [now rewrite !skipn_nil|]. apply IH. Qed.
Lemma load_le_ok v B n : repr (v_words v) B -> forall o, 8 * o + 8 * n <= length B -> load_le (v_words v) n o = Ok (number (firstn (8 * n) (skipn (8 * o) B))).
Proof.
  intros Hr. induction n as [|n IH]; intros o Hf; [reflexivity|]. cbn [load_le]. rewrite byte_at_get, (get_bits_list v B _ _ Hr) by lia. cbn [bind].
  rewrite IH by lia. cbn [bind]. f_equal. replace (8 * S n) with (8 + 8 * n) by lia.
  set (D := skipn (8 * o) B). assert (HD : length D = length B - 8 * o) by apply skipn_length.
  replace (skipn (8 * (o + 1)) B) with (skipn 8 D) by (unfold D; rewrite <- skipn_plus; f_equal; lia).
  rewrite <- (firstn_skipn 8 D) at 3. rewrite firstn_app, firstn_length, Nat.min_l by lia. rewrite (firstn_all2 (n := 8 + 8 * n)) by (rewrite firstn_length; lia).
  replace (8 + 8 * n - 8) with (8 * n) by lia. rewrite number_app, firstn_length, Nat.min_l by lia. reflexivity.
Qed.

Section W.
  Variable width : nat.
  Notation B_ := (8 * width).

  (** ** The iterator over a list *)
  (** The data of [l] can be read. *)
  Definition holds (l : list N) (it : uit) : Prop :=
    n_size it = length l /\ forall i, i < length l -> load_le (n_words it) width (n_off it + i * width) = Ok (nth i l 0%N).
  Lemma holds_pos l it p : holds l it -> holds l (set_pos it p).
  Proof. intros H. exact H. Qed.
  Lemma holds_id l it v : holds l it -> holds l (set_id it v).
  Proof. intros H. exact H. Qed.
  Lemma data_ok l it i : holds l it -> i < length l -> n_data width false it i = Ok (nth i l 0%N).
  Proof. intros [_ H] Hi. unfold n_data. cbn [andb]. now apply H. Qed.

  (** [it] stands at position [p]; the value is the one there, or the universe at the end. *)
  Definition u_at (u : N) (l : list N) (it : uit) (p : nat) : Prop :=
    holds l it /\ n_univ it = u /\ n_pos it = p /\ p <= length l /\ n_id it = nth p l u.
  (** The same, if the value has not been read. *)
  Definition u_stands (u : N) (l : list N) (it : uit) (p : nat) : Prop :=
    holds l it /\ n_univ it = u /\ n_pos it = p /\ p <= length l.
  Lemma at_stands u l it p : u_at u l it p -> u_stands u l it p.
  Proof. intros (A & B & C & D & _). repeat split; try assumption; apply A. Qed.

  Section L.
    Variables (u : N) (l : list N).
    Hypothesis Hu : (u < 2 ^ N.of_nat B_)%N.
    Hypothesis Hl : StronglySorted N.lt l.
    Hypothesis Hne : l <> [].

    Lemma trunc_small x : (x < 2 ^ N.of_nat B_)%N -> trunc width x = x.
    Proof. intros H. unfold trunc, BITS. now apply N.mod_small. Qed.
    Lemma len_pos : 1 <= length l.
    Proof. destruct l; [congruence|cbn; lia]. Qed.

    Lemma deref_ok it p : u_stands u l it p -> p < length l -> exists it', n_deref width false it = Ok it' /\ u_at u l it' p.
    Proof.
      clear Hu Hl Hne. intros (A & B & C & D) Hp. unfold n_deref. rewrite C, (data_ok l it p A Hp). cbn [bind]. eexists. split; [reflexivity|].
      split; [now apply holds_id|]. cbn [set_id n_univ n_pos n_id]. repeat split; try assumption. apply nth_indep. assumption.
    Qed.
    Lemma incr_ok it p : u_stands u l it p -> p < length l -> u_stands u l (n_incr it) (p + 1).
    Proof. clear Hu Hl Hne. intros (A & B & C & D) Hp. unfold n_incr. split; [now apply holds_pos|]. cbn [set_pos n_univ n_pos]. repeat split; try assumption; lia. Qed.
    Lemma access_ok it p i : u_stands u l it p -> i < length l -> exists it', n_access width false it i = Ok it' /\ u_at u l it' i.
    Proof.
      clear Hu Hl Hne. intros (A & B & C & D) Hi. unfold n_access. cbn [set_pos n_pos].
      change (n_data width false _ i) with (n_data width false it i). rewrite (data_ok l it i A Hi). cbn [bind]. eexists. split; [reflexivity|].
      split; [exact A|]. cbn [set_id set_pos n_univ n_pos n_id]. repeat split; try assumption; [lia|]. apply nth_indep. assumption.
    Qed.
    Lemma unext_ok it p : u_stands u l it p -> p < length l -> exists it', n_next width false it = Ok it' /\ u_at u l it' (p + 1).
    Proof.
      clear Hl Hne. intros (A & B & C & D) Hp. unfold n_next. cbn [set_pos n_pos n_size n_univ]. rewrite C, (proj1 A).
      destruct (Nat.eqb_spec (p + 1) (length l)) as [E|E]; cbn [negb].
      - eexists. split; [reflexivity|]. split; [exact A|]. cbn [set_id set_pos n_univ n_pos n_id]. repeat split; try assumption; [lia|].
        rewrite nth_overflow by lia. rewrite B. now apply trunc_small.
      - change (n_data width false _ (p + 1)) with (n_data width false it (p + 1)). rewrite (data_ok l it (p + 1) A) by lia. cbn [bind]. eexists. split; [reflexivity|].
        split; [exact A|]. cbn [set_id set_pos n_univ n_pos n_id]. repeat split; try assumption; [lia|]. apply nth_indep. lia.
    Qed.

    Lemma sorted_nth i j : i < j < length l -> (nth i l 0 < nth j l 0)%N.
    Proof.
      clear Hu. clear Hne. revert i j. induction Hl as [|x m Hs IH Hx]; intros i j Hij; [cbn in Hij; lia|]. destruct j as [|j]; [lia|]. cbn [length] in Hij.
      destruct i as [|i]; cbn [nth].
      - rewrite Forall_forall in Hx. apply Hx, nth_In. lia.
      - apply IH; [assumption|lia].
    Qed.

    (** The answer to a search from position [p]. *)
    Definition answers (it : uit) (p : nat) (lb : N) (it' : uit) : Prop :=
      exists q, u_at u l it' q /\ first_from l p lb q.
    Lemma scan_ok lb p hi it : holds l it -> n_univ it = u -> hi < length l ->
      (hi + 1 < length l -> (lb <= nth (hi + 1) l 0)%N) -> forall cnt i, p <= i -> i + cnt = hi + 1 ->
      (forall j, p <= j < i -> (nth j l 0 < lb)%N) ->
      exists it', n_scan width false cnt i hi lb it = Ok it' /\
        ((exists q, i <= q <= hi /\ u_at u l it' q /\ first_from l p lb q) \/
         (u_stands u l it' (hi + 1) /\ n_id it' = u /\ forall j, p <= j <= hi -> (nth j l 0 < lb)%N)).
    Proof.
      intros A Hun Hhi Hnx. induction cnt as [|cnt IH]; intros i Hp Hi Hb; cbn [n_scan].
      - eexists. split; [reflexivity|]. right. split; [split; [exact A|]; cbn [set_id set_pos n_univ n_pos]; repeat split; try assumption; lia|].
        cbn [set_id set_pos n_id n_univ]. split; [rewrite Hun; now apply trunc_small|]. intros j Hj. apply Hb. lia.
      - rewrite (data_ok l it i A) by lia. cbn [bind]. destruct (N.leb_spec lb (nth i l 0%N)) as [L|L].
        + eexists. split; [reflexivity|]. left. exists i. split; [lia|]. split.
          * split; [exact A|]. cbn [set_id set_pos n_univ n_pos n_id]. repeat split; try assumption; [lia|]. apply nth_indep. lia.
          * split; [lia|]. split; [intros j Hj; apply Hb; lia|]. intros _. exact L.
        + destruct (IH (i + 1)) as (it' & E & H); [lia|lia| |].
          * intros j Hj. destruct (Nat.eq_dec j i) as [->|Hji]; [exact L|]. apply Hb. lia.
          * exists it'. split; [exact E|]. destruct H as [(q & Hq & H)|H]; [left; exists q; split; [lia|exact H]|right; exact H].
    Qed.
    Lemma scan_answers lb p lo hi it : holds l it -> n_univ it = u -> p <= lo <= hi + 1 -> hi < length l ->
      (hi + 1 < length l -> (lb <= nth hi l 0)%N) -> (forall j, p <= j < lo -> (nth j l 0 < lb)%N) -> (hi + 1 < length l -> lo <= hi) ->
      exists it', n_scan width false (hi + 1 - lo) lo hi lb it = Ok it' /\ answers it p lb it'.
    Proof.
      intros A Hun Hlo Hhi Hnx Hb Hlh.
      destruct (scan_ok lb p hi it A Hun Hhi) with (cnt := hi + 1 - lo) (i := lo) as (it' & E & H); try assumption; try lia.
      - intros L. specialize (Hnx L). pose proof (sorted_nth hi (hi + 1) ltac:(lia)). lia.
      - exists it'. split; [exact E|]. destruct H as [(q & _ & Hq)|((H1 & H2 & H3 & H4) & H5 & H6)]; [now exists q|].
        destruct (Nat.eq_dec (hi + 1) (length l)) as [Ee|Ee].
        + exists (hi + 1). split; [split; [exact H1|]; repeat split; try assumption; rewrite nth_overflow by lia; assumption|].
          split; [lia|]. split; [intros i Hi; apply H6; lia|lia].
        + exfalso. specialize (Hnx ltac:(lia)). specialize (H6 hi ltac:(lia)). lia.
    Qed.

    Lemma geq_by_scan_ok it p lb : u_stands u l it p -> (lb < 2 ^ N.of_nat B_)%N -> exists it', n_geq_by_scan width false it lb = Ok it' /\ answers it p lb it'.
    Proof.
      intros (A & B & C & D) Hlb. unfold n_geq_by_scan, n_last. rewrite (proj1 A). pose proof len_pos as Hlen. destruct (Nat.eqb_spec (length l) 0); [lia|]. cbn [bind].
      rewrite C, trunc_small by assumption. apply scan_answers; try assumption; lia.
    Qed.

    Definition geq_inv (p : nat) (lb : N) (s : nat * nat * uit) : Prop :=
      let '(lo, hi, it) := s in
      holds l it /\ n_univ it = u /\ p <= lo <= hi + 1 /\ hi < length l /\
      (hi + 1 < length l -> (lb <= nth hi l 0)%N) /\ (forall j, p <= j < lo -> (nth j l 0 < lb)%N) /\
      (hi < lo -> lo = length l /\ n_pos it = length l).
    Lemma geq_step_ok p lb s : geq_inv p lb s ->
      match n_geq_step width false lb s with
      | Ok (inl s') => geq_inv p lb s' /\ (snd (fst s') + 1 - fst (fst s')) < (snd (fst s) + 1 - fst (fst s))
      | Ok (inr r) => answers (snd s) p lb r
      | _ => False
      end.
    Proof.
      destruct s as [[lo hi] it]. cbn [fst snd]. intros (A & Hun & Hlo & Hhi & Hnx & Hb & Hend). cbn [n_geq_step].
      destruct (Nat.leb_spec lo hi) as [L|L].
      2:{ destruct (Hend L) as [E1 E2]. exists lo. split.
          - split; [exact A|]. cbn [set_id n_univ n_pos n_id]. repeat split; try assumption; [congruence|lia|]. rewrite nth_overflow by lia. rewrite Hun. now apply trunc_small.
          - split; [lia|]. split; [exact Hb|lia]. }
      destruct (Nat.leb_spec (hi - lo) 8) as [L8|L8].
      { destruct (scan_answers lb p lo hi it A Hun Hlo Hhi Hnx Hb ltac:(lia)) as (it' & -> & H). cbn [bind]. exact H. }
      cbn [set_pos n_pos]. set (mid := (lo + hi) / 2).
      assert (Hmid : lo < mid < hi). { pose proof (Nat.div_mod (lo + hi) 2 ltac:(lia)) as E. pose proof (Nat.mod_upper_bound (lo + hi) 2 ltac:(lia)). fold mid in E. lia. }
      change (n_data width false (set_pos it mid)) with (n_data width false it). rewrite (data_ok l it mid A) by lia. cbn [bind].
      destruct (N.ltb_spec lb (nth mid l 0%N)) as [Lv|Lv].
      - destruct (Nat.eqb_spec mid 0) as [E0|E0]; [lia|]. cbn [negb].
        change (n_data width false (set_pos it mid)) with (n_data width false it). rewrite (data_ok l it (mid - 1) A) by lia. cbn [bind].
        destruct (N.ltb_spec (nth (mid - 1) l 0%N) lb) as [Lw|Lw].
        + exists mid. split.
          * split; [exact A|]. cbn [set_id set_pos n_univ n_pos n_id]. repeat split; try assumption; [lia|]. apply nth_indep. lia.
          * split; [lia|]. split; [|intros _; lia]. intros i Hi. destruct (Nat.eq_dec i (mid - 1)) as [->|Hne']; [exact Lw|].
            pose proof (sorted_nth i (mid - 1) ltac:(lia)). lia.
        + cbn [fst snd]. split; [|lia]. split; [exact A|]. cbn [set_pos n_univ n_pos]. split; [exact Hun|]. split; [lia|]. split; [lia|]. split; [intros _; exact Lw|]. split; [exact Hb|lia].
      - destruct (N.ltb_spec (nth mid l 0%N) lb) as [Lw|Lw].
        + cbn [fst snd]. split; [|lia]. split; [exact A|]. cbn [set_pos n_univ n_pos]. split; [exact Hun|]. split; [lia|]. split; [lia|]. split; [exact Hnx|]. split; [|lia].
          intros j Hj. destruct (Nat.eq_dec j mid) as [->|Hne']; [exact Lw|]. destruct (Nat.lt_ge_cases j lo); [apply Hb; lia|].
          pose proof (sorted_nth j mid ltac:(lia)). lia.
        + exists mid. split.
          * split; [exact A|]. cbn [set_id set_pos n_univ n_pos n_id]. repeat split; try assumption; [lia|]. apply nth_indep. lia.
          * split; [lia|]. split; [|intros _; lia]. intros i Hi. pose proof (sorted_nth i mid ltac:(lia)). lia.
    Qed.
    Lemma next_geq_ok it p lb : u_stands u l it p -> (lb < 2 ^ N.of_nat B_)%N -> exists it', n_next_geq width false it lb = Ok it' /\ answers it p lb it'.
    Proof.
      intros (A & B & C & D) Hlb. unfold n_next_geq, n_last. rewrite (proj1 A). pose proof len_pos as Hlen. destruct (Nat.eqb_spec (length l) 0); [lia|]. cbn [bind].
      rewrite C, trunc_small by assumption.
      destruct (loop_ok (n_geq_step width false lb) (geq_inv p lb) (fun s => snd (fst s) + 1 - fst (fst s)) (fun r => answers it p lb r)) with (fuel := S (S (length l))) (s := (p, length l - 1, it)) as (r & E & H).
      - intros s Hs. exact (geq_step_ok p lb s Hs).
      - split; [exact A|]. split; [exact B|]. split; [lia|]. split; [lia|]. split; [lia|]. split; [lia|]. intros H1. split; lia.
      - cbn [fst snd]. lia.
      - exists r. split; [exact E|exact H].
    Qed.

    Lemma intersects_ok it p lo hi : u_stands u l it p ->
      exists b, n_intersects width false it lo hi = Ok b /\ (b = true <-> exists v, In v l /\ (lo <= v <= hi)%N).
    Proof.
      clear Hu Hne. intros (A & _). unfold n_intersects. rewrite (proj1 A).
      assert (G : forall cnt i, i + cnt = length l -> (forall j, j < i -> (nth j l 0 < lo)%N \/ (hi < nth j l 0)%N) ->
        exists b, n_intersects_from width false it cnt i lo hi = Ok b /\ (b = true <-> exists v, In v l /\ (lo <= v <= hi)%N)).
      { induction cnt as [|cnt IH]; intros i Hi Hb; cbn [n_intersects_from].
        - exists false. split; [reflexivity|]. split; [discriminate|]. intros (v & Hv & Hr). apply (In_nth _ _ 0%N) in Hv as (j & Hj & <-). specialize (Hb j ltac:(lia)). lia.
        - rewrite (data_ok l it i A) by lia. cbn [bind]. destruct (N.ltb_spec hi (nth i l 0%N)) as [L|L].
          + exists false. split; [reflexivity|]. split; [discriminate|]. intros (v & Hv & Hr). apply (In_nth _ _ 0%N) in Hv as (j & Hj & <-).
            destruct (Nat.lt_ge_cases j i) as [Lj|Lj]; [specialize (Hb j Lj); lia|]. destruct (Nat.eq_dec j i) as [->|Hne']; [lia|]. pose proof (sorted_nth i j ltac:(lia)). lia.
          + destruct (N.leb_spec lo (nth i l 0%N)) as [L1|L1]; cbn [andb].
            * destruct (N.leb_spec (nth i l 0%N) hi); [|lia]. exists true. split; [reflexivity|]. split; [intros _|reflexivity]. exists (nth i l 0%N). split; [apply nth_In; lia|lia].
            * apply IH; [lia|]. intros j Hj. destruct (Nat.eq_dec j i) as [->|Hne']; [left; exact L1|]. apply Hb. lia. }
      apply G; [lia|]. intros j Hj. lia.
    Qed.
    Lemma ucollect_ok fuel : forall it p, u_stands u l it p -> length l - p < fuel -> n_collect width false fuel it = Ok (skipn p l).
    Proof.
      clear Hu Hl Hne. induction fuel as [|fuel IH]; intros it p Hat Hf; [lia|]. cbn [n_collect]. unfold n_has_next. destruct Hat as (A & B & C & D) eqn:EH. rewrite C, (proj1 A).
      destruct (Nat.ltb_spec p (length l)) as [L|L].
      - destruct (deref_ok it p Hat L) as (it' & -> & Hat'). cbn [bind]. rewrite (IH (n_incr it') (p + 1)); [|now apply incr_ok, L; apply at_stands|lia]. cbn [bind]. f_equal.
        destruct Hat' as (_ & _ & _ & _ & ->). clear -L. revert p L. induction l as [|x m IH]; intros p L; cbn [length] in L; [lia|]. destruct p; [reflexivity|]. cbn [skipn nth Nat.add]. apply IH. lia.
      - f_equal. symmetry. apply skipn_all2. lia.
    Qed.
  End L.
End W.

(** ** The inverted index *)
Section Index.
  Variable width : nat.
  Hypothesis Hw : 1 <= width <= 8.
  Variable u : N.
  Hypothesis Hu : (u < 2 ^ N.of_nat (8 * width))%N.

  Definition good_ulist (l : list N) : Prop := l <> [] /\ Forall (fun v => (v < u)%N) l /\ (N.of_nat (length l) < 2 ^ 40)%N.
  Definition gcode (l : list N) : list bool := int_code GammaNonzero (N.of_nat (length l)).
  Definition enc_ulist (l : list N) (pre M : list bool) : Prop :=
    good_ulist l /\ exists pad, pad < 8 /\ M = gcode l ++ bits_of pad 0 ++ flat_map (bits_of (8 * width)) l /\
      pad = (if length (pre ++ gcode l) mod 8 =? 0 then 0 else 8 - length (pre ++ gcode l) mod 8).

  Lemma ulist_int_ok l : good_ulist l -> int_ok GammaNonzero (N.of_nat (length l)).
  Proof. intros (Hne & _ & Hn). cbn [int_ok]. assert (2 ^ 40 < 2 ^ 64)%N by reflexivity. destruct l; [congruence|]. cbn [length] in *. lia. Qed.
  Lemma append_all_ok64 l : Forall (fun t => (t < u)%N) l -> forall b L, bvb_ok b L ->
    exists b', append_all b l (8 * width) = Ok b' /\ bvb_ok b' (L ++ flat_map (bits_of (8 * width)) l).
  Proof.
    induction 1 as [|t l Ht Hl IH]; intros b L Hb; cbn [append_all flat_map].
    - exists b. now rewrite app_nil_r.
    - destruct (append_bits_ok b L t (8 * width) Hb ltac:(lia) ltac:(lia)) as (b1 & -> & H1). cbn [bind]. destruct (IH b1 _ H1) as (b2 & -> & H2). exists b2. split; [reflexivity|]. now rewrite app_assoc.
  Qed.
  Lemma push_pad_ok b L : bvb_ok b L -> exists b', push_pad b 8 = Ok b' /\ bvb_ok b' (L ++ bits_of (if length L mod 8 =? 0 then 0 else 8 - length L mod 8) 0).
  Proof.
    intros Hb. unfold push_pad. rewrite (bo_size _ _ Hb). destruct (Nat.eqb_spec (length L mod 8) 0) as [E|E].
    - exists b. cbn [bits_of]. now rewrite app_nil_r.
    - apply append_bits_ok; [assumption|lia|]. apply N.neq_0_lt_0, N.pow_nonzero. discriminate.
  Qed.
  Lemma write_ulist_ok b L l : bvb_ok b L -> good_ulist l ->
    exists b' M, write_ulist width b l = Ok b' /\ bvb_ok b' (L ++ M) /\ enc_ulist l L M /\ length M <= 200 * length l.
  Proof.
    intros Hb Hg. pose proof (ulist_int_ok l Hg) as Hi. unfold write_ulist.
    destruct (write_int_ok b L GammaNonzero (N.of_nat (length l)) Hb Hi) as (b1 & E1 & H1). cbn [write_int] in E1. rewrite E1. cbn [bind].
    fold (gcode l) in H1. destruct (push_pad_ok b1 _ H1) as (b2 & -> & H2). cbn [bind]. set (pad := if length (L ++ gcode l) mod 8 =? 0 then 0 else 8 - length (L ++ gcode l) mod 8) in *.
    destruct (append_all_ok64 l (proj1 (proj2 Hg)) b2 _ H2) as (b3 & E3 & H3). unfold BITS. rewrite E3. exists b3, (gcode l ++ bits_of pad 0 ++ flat_map (bits_of (8 * width)) l).
    assert (Hpad : pad < 8) by (unfold pad; destruct (Nat.eqb_spec (length (L ++ gcode l) mod 8) 0); lia).
    split; [reflexivity|]. rewrite !app_assoc. split; [assumption|]. split; [split; [assumption|exists pad; rewrite !app_assoc; auto]|].
    rewrite !app_length, bits_of_length, flat_bits_length. pose proof (gamma_cost _ Hi) as Hgc. fold (gcode l) in Hgc.
    destruct Hg as (Hne & _). destruct l; [congruence|]. cbn [length] in *. nia.
  Qed.

  Lemma flat_field l post i : Forall (fun v => (v < u)%N) l -> i < length l ->
    number (firstn (8 * width) (skipn (i * (8 * width)) (flat_map (bits_of (8 * width)) l ++ post))) = nth i l 0%N.
  Proof.
    intros Hl Hi. rewrite <- (number_bits_of (8 * width) (nth i l 0%N)) by (rewrite Forall_forall in Hl; specialize (Hl _ (nth_In l 0%N Hi)); lia). f_equal.
    clear -Hi. set (w := 8 * width) in *. clearbody w. revert i Hi. induction l as [|t l IH]; intros i Hi; cbn [length] in Hi; [lia|]. cbn [flat_map]. rewrite <- app_assoc. destruct i as [|i].
    + cbn [Nat.mul skipn nth]. rewrite firstn_app, bits_of_length, Nat.sub_diag. cbn [firstn]. rewrite app_nil_r. apply firstn_all2. rewrite bits_of_length. lia.
    + rewrite skipn_app, skipn_all2 by (rewrite bits_of_length; nia). rewrite bits_of_length. cbn [app nth]. replace (S i * w - w) with (i * w) by nia. apply IH. lia.
  Qed.

  Lemma uinv_build_ok lists : lists <> [] -> Forall good_ulist lists -> (N.of_nat (length (concat lists)) < 2 ^ 40)%N ->
    exists ii, uinv_build width u lists = Ok ii /\ inv_terms ii = length lists /\
      forall t l, nth_error lists t = Some l -> exists it, uinv_iterator width ii t = Ok it /\ u_stands width u l it 0.
  Proof.
    intros Hne Hg Htot. unfold uinv_build.
    destruct (build_records_ok (write_ulist width) enc_ulist (fun l => 200 * length l) good_ulist) with (xs := lists) as (r & B & E & Hr & Hq & Hget); try assumption.
    - intros b L l Hb Hl. now apply write_ulist_ok.
    - rewrite total_linear. unfold W64. assert (2 ^ 40 = 1099511627776)%N by reflexivity. lia.
    - rewrite E. cbn [bind]. eexists. split; [reflexivity|]. split; [exact Hq|].
      intros t l Hl. destruct (Hget t l Hl) as (pre & M & post & EB & Ep & Hgl & pad & Hpad & EM & Epad). unfold uinv_iterator. cbn [ii_lists ii_docs]. rewrite Ep. cbn [bind].
      pose proof (ulist_int_ok l Hgl) as Hi. set (D := flat_map (bits_of (8 * width)) l) in *.
      assert (Hr1 : repr (v_words (r_data r)) (pre ++ gcode l ++ bits_of pad 0 ++ D ++ post)) by (rewrite EB, EM, <- !app_assoc in Hr; exact Hr).
      destruct (read_int_ok _ pre GammaNonzero (N.of_nat (length l)) (bits_of pad 0 ++ D ++ post) (bi_new (length pre)) (66 + 64 * length (v_words (r_data r))) Hr1 (reads_new _ _) Hi ltac:(lia)) as (it1 & E1 & H1).
      cbn [read_int] in E1. rewrite E1. cbn [bind]. fold (gcode l) in H1. rewrite <- app_length in H1.
      assert (Hr2 : repr (v_words (r_data r)) ((pre ++ gcode l) ++ bits_of pad 0 ++ D ++ post)) by (rewrite <- app_assoc; exact Hr1).
      set (P := pre ++ gcode l) in *.
      assert (He : exists it2, eat_pad (v_words (r_data r)) it1 8 = Ok it2 /\ bi_pos it2 = length P + pad).
      { unfold eat_pad. rewrite (rd_pos _ _ _ H1). destruct (Nat.eqb_spec (length P mod 8) 0) as [Z|Z].
        - exists it1. split; [reflexivity|]. rewrite (rd_pos _ _ _ H1). lia.
        - destruct (read_fixed_ok _ P pad 0 (D ++ post) it1 Hr2 H1) as (it2 & E2 & H2); [lia|apply N.neq_0_lt_0, N.pow_nonzero; discriminate|].
          rewrite <- Epad, E2. cbn [bind]. exists it2. split; [reflexivity|]. apply H2. }
      destruct He as (it2 & -> & E2). cbn [bind]. rewrite E2, Nat2N.id. eexists. split; [reflexivity|].
      assert (H8 : 8 * ((length P + pad) / 8) = length P + pad).
      { assert (Hm : (length P + pad) mod 8 = 0).
        { pose proof (Nat.div_mod (length P) 8 ltac:(lia)) as Ed. destruct (Nat.eqb_spec (length P mod 8) 0) as [Z|Z].
          - subst pad. rewrite Nat.add_0_r. exact Z.
          - pose proof (Nat.mod_upper_bound (length P) 8 ltac:(lia)). replace (length P + pad) with ((length P / 8 + 1) * 8) by lia. now apply Nat.mod_mul. }
        pose proof (Nat.div_mod (length P + pad) 8 ltac:(lia)). lia. }
      split; [|cbn [n_iterator n_univ n_pos]; repeat split; lia].
      split; [reflexivity|]. intros i Hi'. cbn [n_iterator n_words n_off].
      assert (Hlen : length (P ++ bits_of pad 0) = length P + pad) by (rewrite app_length, bits_of_length; reflexivity).
      assert (Hr3 : repr (v_words (r_data r)) ((P ++ bits_of pad 0) ++ D ++ post)) by (rewrite <- app_assoc; exact Hr2).
      assert (HD : length D = length l * (8 * width)) by apply flat_bits_length.
      assert (Hm : (i + 1) * (8 * width) <= length l * (8 * width)) by (apply Nat.mul_le_mono_r; lia).
      rewrite (load_le_ok _ _ width Hr3) by (rewrite app_length, Hlen, app_length, HD; nia). f_equal.
      replace (8 * ((length P + pad) / 8 + i * width)) with (length (P ++ bits_of pad 0) + i * (8 * width)) by (rewrite Hlen; nia).
      rewrite skipn_plus, skipn_app, skipn_all, Nat.sub_diag. cbn [app skipn]. apply flat_field; [apply Hgl|assumption].
  Qed.
End Index.

Lemma wf_ulists_good width u lists : wf_ulists width u lists -> Forall (good_ulist u) lists.
Proof.
  intros H. rewrite Forall_forall. intros l Hl.
  pose proof (wu_nonempty _ _ _ H) as H1. pose proof (wu_below _ _ _ H) as H2. rewrite Forall_forall in H1, H2. split; [now apply H1|]. split; [now apply H2|].
  pose proof (wu_size _ _ _ H). assert (length l <= length (concat lists)); [|lia].
  apply in_split in Hl as (l1 & l2 & ->). rewrite concat_app, app_length. cbn [concat]. rewrite app_length. lia.
Qed.

Lemma ulists_ok : forall width u lists, wf_ulists width u lists ->
  exists ii, uinv_build width u lists = Ok ii /\ inv_terms ii = length lists /\
    forall t l, nth_error lists t = Some l -> exists it, uinv_iterator width ii t = Ok it /\ u_stands width u l it 0.
Proof. intros width u lists H. apply uinv_build_ok; [apply H|apply H|apply H|now apply wf_ulists_good in H|apply H]. Qed.

Lemma uread_ok : forall width u lists, wf_ulists width u lists ->
  exists ii, uinv_build width u lists = Ok ii /\ inv_terms ii = length lists /\
    forall t l, nth_error lists t = Some l -> exists it, uinv_iterator width ii t = Ok it /\ n_size it = length l /\
      forall fuel, length l < fuel -> n_collect width false fuel it = Ok l.
Proof.
  intros width u lists H. destruct (ulists_ok width u lists H) as (ii & E & En & Hit). exists ii. split; [exact E|]. split; [exact En|].
  intros t l Hl. destruct (Hit t l Hl) as (it & Ei & Hat). exists it. split; [exact Ei|]. split; [apply Hat|]. intros fuel Hf.
  apply (ucollect_ok width u l fuel it 0 Hat). lia.
Qed.

Lemma first_from_unique l p x q q' : first_from l p x q -> first_from l p x q' -> q = q'.
Proof.
  intros (A & B & C) (A' & B' & C'). destruct (Nat.lt_trichotomy q q') as [L|[E|L]]; [|exact E|].
  - specialize (B' q ltac:(lia)). specialize (C ltac:(lia)). lia.
  - specialize (B q' ltac:(lia)). specialize (C' ltac:(lia)). lia.
Qed.
Lemma list_facts width u lists t l : wf_ulists width u lists -> nth_error lists t = Some l -> StronglySorted N.lt l /\ l <> [] /\ Forall (fun v => (v < u)%N) l.
Proof.
  intros H Hl. apply nth_error_In in Hl. pose proof (wu_nonempty _ _ _ H) as H1. pose proof (wu_below _ _ _ H) as H2. pose proof (wu_sorted _ _ _ H) as H3.
  rewrite Forall_forall in H1, H2, H3. auto.
Qed.

Section Hist.
  Variables (width : nat) (u : N) (l : list N).
  Hypothesis Hu : (u < 2 ^ N.of_nat (8 * width))%N.
  Hypothesis Hl : StronglySorted N.lt l.
  Hypothesis Hne : l <> [].
  Lemma uops_at ops p r : uops_move width l ops p r -> forall it, u_stands width u l it p -> exists it', uops_run width false ops it = Ok it' /\ u_stands width u l it' r.
  Proof.
    induction 1 as [p|op ops p q r Hop Hops IH]; intros it Hat; cbn [uops_run]; [now exists it|].
    assert (Hs : exists it', uop_run width false op it = Ok it' /\ u_stands width u l it' q).
    { destruct op as [| |i|x|x]; cbn [uop_run uop_moves] in *; destruct Hop as [H1 H2].
      - subst q. eexists. split; [reflexivity|]. now apply incr_ok.
      - subst q. destruct (unext_ok width u l Hu it p Hat H1) as (it' & E & H). exists it'. split; [exact E|]. now apply at_stands.
      - subst q. destruct (access_ok width u l it p i Hat H1) as (it' & E & H). exists it'. split; [exact E|]. now apply at_stands.
      - destruct (next_geq_ok width u l Hu Hl Hne it p x Hat H1) as (it' & E & q' & H & Hq). exists it'. split; [exact E|]. rewrite (first_from_unique _ _ _ _ _ H2 Hq). now apply at_stands.
      - destruct (geq_by_scan_ok width u l Hu Hl Hne it p x Hat H1) as (it' & E & q' & H & Hq). exists it'. split; [exact E|]. rewrite (first_from_unique _ _ _ _ _ H2 Hq). now apply at_stands. }
    destruct Hs as (it' & -> & Hat'). cbn [bind]. now apply IH.
  Qed.
  Lemma stands_shows it p : u_stands width u l it p -> ushows width false l it p.
  Proof.
    intros H. pose proof H as (A & B & C & D). split; [exact C|]. split; [apply A|]. split; [unfold n_has_next; now rewrite C, (proj1 A)|].
    intros L. destruct (deref_ok width u l it p H L) as (it' & E & H'). exists it'. split; [exact E|]. destruct H' as (_ & _ & E1 & _ & E2). split; [|exact E1]. rewrite E2. now apply nth_indep.
  Qed.
End Hist.

Lemma uhistory_ok : forall width u lists ii t l ops q, wf_ulists width u lists -> uinv_build width u lists = Ok ii ->
  nth_error lists t = Some l -> uops_move width l ops 0 q ->
  exists it it', uinv_iterator width ii t = Ok it /\ uops_run width false ops it = Ok it' /\ ushows width false l it' q.
Proof.
  intros width u lists ii t l ops q H Eb Hl Hm. destruct (ulists_ok width u lists H) as (ii' & E & En & Hit). rewrite Eb in E. injection E as <-.
  destruct (Hit t l Hl) as (it & Ei & Hat). destruct (list_facts _ _ _ _ _ H Hl) as (F1 & F2 & F3).
  destruct (uops_at width u l (wu_fits _ _ _ H) F1 F2 ops 0 q Hm it Hat) as (it' & E' & Hat'). exists it, it'. split; [exact Ei|]. split; [exact E'|]. eapply stands_shows, Hat'.
Qed.

(** The value next(), access() and the searches return. *)
Lemma ureturns_ok : forall width u lists ii t l ops op p q, wf_ulists width u lists -> uinv_build width u lists = Ok ii ->
  nth_error lists t = Some l -> uops_move width l ops 0 p -> uop_moves width l op p q -> op <> UIncr ->
  exists it it' it'', uinv_iterator width ii t = Ok it /\ uops_run width false ops it = Ok it' /\ uop_run width false op it' = Ok it'' /\ n_id it'' = nth q l u.
Proof.
  intros width u lists ii t l ops op p q H Eb Hl Hm Hop Hni. destruct (ulists_ok width u lists H) as (ii' & E & En & Hit). rewrite Eb in E. injection E as <-.
  destruct (Hit t l Hl) as (it & Ei & Hat). destruct (list_facts _ _ _ _ _ H Hl) as (F1 & F2 & F3). pose proof (wu_fits _ _ _ H) as Hu.
  destruct (uops_at width u l Hu F1 F2 ops 0 p Hm it Hat) as (it' & E' & Hat'). exists it, it'.
  assert (Hs : exists it'', uop_run width false op it' = Ok it'' /\ u_at width u l it'' q).
  { destruct op as [| |i|x|x]; cbn [uop_run uop_moves] in *; destruct Hop as [H1 H2]; [congruence| | | |].
    - subst q. now apply unext_ok.
    - subst q. now apply (access_ok width u l it' p).
    - destruct (next_geq_ok width u l Hu F1 F2 it' p x Hat' H1) as (it'' & Eg & q' & Hq' & Hq). exists it''. split; [exact Eg|]. now rewrite (first_from_unique _ _ _ _ _ H2 Hq).
    - destruct (geq_by_scan_ok width u l Hu F1 F2 it' p x Hat' H1) as (it'' & Eg & q' & Hq' & Hq). exists it''. split; [exact Eg|]. now rewrite (first_from_unique _ _ _ _ _ H2 Hq). }
  destruct Hs as (it'' & Es & Hs). exists it''. repeat (split; [assumption|]). apply Hs.
Qed.

Lemma uintersects_ok : forall width u lists ii t l lo hi, wf_ulists width u lists -> uinv_build width u lists = Ok ii -> nth_error lists t = Some l ->
  exists it b, uinv_iterator width ii t = Ok it /\ n_intersects width false it lo hi = Ok b /\ (b = true <-> exists v, In v l /\ (lo <= v <= hi)%N).
Proof.
  intros width u lists ii t l lo hi H Eb Hl. destruct (ulists_ok width u lists H) as (ii' & E & En & Hit). rewrite Eb in E. injection E as <-.
  destruct (Hit t l Hl) as (it & Ei & Hat). destruct (list_facts _ _ _ _ _ H Hl) as (F1 & F2 & F3). destruct (intersects_ok width u l F1 it 0 lo hi Hat) as (b & Ei' & Hb). now exists it, b.
Qed.

(** ** Intersections *)
Definition u_cursor (width : nat) (u : nat) (it : uit) (l : list nat) (p : nat) : Prop :=
  u_at width (N.of_nat u) (map N.of_nat l) it p /\ l <> [] /\ increasing l /\ Forall (fun x => x < u) l /\ (N.of_nat u < 2 ^ N.of_nat (8 * width))%N.
Lemma increasing_map l : increasing l -> StronglySorted N.lt (map N.of_nat l).
Proof. induction 1 as [|x l Hs IH Hx]; cbn [map]; constructor; [assumption|]. apply Forall_map. eapply Forall_impl; [|exact Hx]. cbn. lia. Qed.
Lemma first_geq_from l p lb q : first_from (map N.of_nat l) p (N.of_nat lb) q -> p <= first_geq l lb -> q = first_geq l lb.
Proof.
  intros (A & B & C) Hp. rewrite map_length in *.
  assert (Hn : forall i, i < length l -> nth i (map N.of_nat l) 0%N = N.of_nat (nth i l 0)) by (intros i Hi; change 0%N with (N.of_nat 0); apply map_nth).
  assert (Hlow : forall i, i < first_geq l lb -> nth i l 0 < lb).
  { clear. induction l as [|x l IH]; cbn [first_geq]; intros i Hi; [lia|]. destruct (Nat.leb_spec lb x); [lia|]. destruct i as [|i]; cbn [nth]; [lia|]. apply IH. lia. }
  assert (Hat : first_geq l lb < length l -> lb <= nth (first_geq l lb) l 0).
  { clear. induction l as [|x l IH]; cbn [first_geq]; intros Hi; [cbn in Hi; lia|]. destruct (Nat.leb_spec lb x); [cbn; lia|]. cbn [length nth] in *. apply IH. lia. }
  assert (Hle : first_geq l lb <= length l) by (clear; induction l as [|x l IH]; cbn [first_geq length]; [lia|]; destruct (lb <=? x); lia).
  destruct (Nat.lt_trichotomy q (first_geq l lb)) as [L|[E|L]]; [|exact E|].
  - specialize (Hlow q L). specialize (C ltac:(lia)). rewrite Hn in C by lia. lia.
  - specialize (B (first_geq l lb) ltac:(lia)). rewrite Hn in B by lia. specialize (Hat ltac:(lia)). lia.
Qed.
Lemma u_is_cursor width u : forward_cursor (n_ops width false) u (u_cursor width u).
Proof.
  intros it l p (Hat & Hne & Hinc & Hlt & Hu). pose proof Hat as (A & B & C & D & E). rewrite map_length in D.
  pose proof (at_stands _ _ _ _ _ Hat) as Hst. pose proof (increasing_map l Hinc) as Hs. assert (Hne' : map N.of_nat l <> []) by (intros Z; apply map_eq_nil in Z; congruence).
  pose proof (proj1 A) as Hsz. rewrite map_length in Hsz.
  cbn [i_size i_has_next i_deref i_next i_next_geq i_access0 n_ops].
  split; [assumption|]. split; [assumption|]. split; [assumption|]. split; [assumption|]. split; [exact Hsz|]. split; [unfold n_has_next; now rewrite C, Hsz|].
  split; [rewrite E, map_nth; apply Nat2N.id|]. split; [|split].
  - intros L. destruct (unext_ok width _ _ Hu it p Hst) as (it' & En & H'); [now rewrite map_length|]. exists it'. split; [exact En|]. repeat (split; [assumption|]). assumption.
  - intros lb Hlb Hp. destruct (next_geq_ok width _ _ Hu Hs Hne' it p (N.of_nat lb) Hst) as (it' & En & q & H' & Hq); [lia|]. exists it'. split; [exact En|].
    rewrite (first_geq_from _ _ _ _ Hq Hp) in H'. repeat (split; [assumption|]). assumption.
  - destruct (access_ok width _ _ it p 0 Hst) as (it' & En & H'); [rewrite map_length; destruct l; [congruence|cbn; lia]|]. exists it'. split; [exact En|]. repeat (split; [assumption|]). assumption.
Qed.
Lemma u_opens width u postings ii : wf_ulists width (N.of_nat u) (map (map N.of_nat) postings) -> uinv_build width (N.of_nat u) (map (map N.of_nat) postings) = Ok ii ->
  opens (u_cursor width u) (uinv_open width false ii) postings.
Proof.
  intros H Eb t l Hl. destruct (ulists_ok _ _ _ H) as (ii' & E & En & Hit). rewrite Eb in E. injection E as <-.
  assert (Hl' : nth_error (map (map N.of_nat) postings) t = Some (map N.of_nat l)) by (now rewrite nth_error_map, Hl).
  destruct (Hit t _ Hl') as (it & Ei & Hat). destruct (list_facts _ _ _ _ _ H Hl') as (F1 & F2 & F3). assert (Hne : l <> []) by (intros ->; apply F2; reflexivity).
  unfold uinv_open. rewrite Ei. cbn [bind]. destruct (deref_ok width _ _ it 0 Hat) as (it' & Ed & Hat'); [rewrite map_length; destruct l; [congruence|cbn; lia]|].
  exists it'. split; [exact Ed|]. split; [exact Hat'|]. split; [exact Hne|]. split.
  - clear -F1. induction l as [|x l IH]; [constructor|]. cbn [map] in F1. inversion F1 as [|? ? F2 F3]; subst. constructor; [now apply IH|].
    rewrite Forall_map in F3. eapply Forall_impl; [|exact F3]. cbn. lia.
  - split; [|apply H]. rewrite Forall_map in F3. eapply Forall_impl; [|exact F3]. cbn. lia.
Qed.
