(** Proofs about M_Find. *)
From Coq Require Import Sorted.
From Verif Require Import Base M_Find S_Search.
Local Open Scope nat_scope.

Section Reads.
  Variable acc : nat -> res N.
  Variable itr : nat -> nat -> res N.
  Variable l : list N.
  Hypothesis Hacc : forall i, i < length l -> acc i = Ok (nth i l 0%N).
  Hypothesis Hitr : forall lo j, lo + j < length l -> itr lo j = Ok (nth (lo + j) l 0%N).

  Lemma scan_from_ok test lo : forall n j,
    lo + j + n <= length l ->
    exists r, scan_from itr test lo j n = Ok r /\
      match r with
      | Some p => lo + j <= p < lo + j + n /\ test (nth p l 0%N) = true /\
                  (forall q, lo + j <= q < p -> test (nth q l 0%N) = false)
      | None => forall q, lo + j <= q < lo + j + n -> test (nth q l 0%N) = false
      end.
  Proof.
    induction n as [|n IH]; intros j H.
    - exists None. split; [reflexivity|]. intros; lia.
    - cbn [scan_from]. rewrite Hitr by lia. cbn [bind].
      destruct (test (nth (lo + j) l 0%N)) eqn:T.
      + eexists; split; [reflexivity|]. cbn. split; [lia|]. split; [exact T|]. intros; lia.
      + destruct (IH (j + 1) ltac:(lia)) as [r [E Hr]]. exists r. split; [exact E|].
        destruct r as [p|].
        * destruct Hr as (H1 & H2 & H3). split; [lia|]. split; [exact H2|].
          intros q Hq. destruct (Nat.eq_dec q (lo + j)) as [->|]; [exact T|]. apply H3. lia.
        * intros q Hq. destruct (Nat.eq_dec q (lo + j)) as [->|]; [exact T|]. apply Hr. lia.
  Qed.

  Lemma find_ok id lo0 hi0 :
    hi0 < length l -> increasing_on l lo0 (hi0 + 1) ->
    exists r, find acc itr id lo0 hi0 = Ok r /\ is_position l lo0 (hi0 + 1) id r.
  Proof.
    intros Hh Hs. unfold find.
    apply (loop_ok (find_step acc itr id)
      (fun s => lo0 <= fst s /\ snd s <= hi0 /\
         forall p, lo0 <= p < hi0 + 1 -> nth p l 0%N = id -> fst s <= p <= snd s)
      (fun s => snd s + 1 - fst s)
      (fun r => is_position l lo0 (hi0 + 1) id r) ) with (s := (lo0, hi0));
      [| cbn; repeat split; lia | cbn; lia].
    intros [lo hi] (H1 & H2 & H3). cbn [fst snd] in *. cbn [find_step].
    destruct (Nat.leb_spec lo hi) as [Hle|Hgt].
    2:{ cbn. intros p Hp E. specialize (H3 p Hp E). lia. }
    assert (Hpos : lo <= lo + (hi - lo) / 2 <= hi).
    { pose proof (Nat.div_le_upper_bound (hi - lo) 2 (hi - lo)). lia. }
    set (pos := lo + (hi - lo) / 2) in *. clearbody pos.
    assert (Hscan : exists f, (if hi - lo <=? LINEAR_SCAN_THRESHOLD
        then scan_from itr (fun v : N => (v =? id)%N) lo 0 (hi - lo) else Ok None) = Ok f /\
        match f with Some p => lo <= p <= hi /\ nth p l 0%N = id | None => True end).
    { destruct (hi - lo <=? LINEAR_SCAN_THRESHOLD).
      - destruct (scan_from_ok (fun v : N => (v =? id)%N) lo (hi - lo) 0 ltac:(lia)) as [r [E Hr]].
        exists r. split; [exact E|]. destruct r as [p|]; [|exact I].
        destruct Hr as (A & B & _). apply N.eqb_eq in B. split; [lia|exact B].
      - exists None. auto. }
    destruct Hscan as [f [E Hf]]. rewrite E. cbn [bind].
    destruct f as [p|].
    { cbn. split; [lia|]. apply Hf. }
    rewrite Hacc by lia. cbn [bind].
    destruct (N.eqb_spec (nth pos l 0%N) id) as [Eq|Ne].
    { cbn. split; [lia|exact Eq]. }
    destruct (N.ltb_spec id (nth pos l 0%N)) as [Hlt|Hge].
    - destruct (Nat.eqb_spec pos 0) as [P0|P0].
      + cbn. intros p Hp Ep. specialize (H3 p Hp Ep).
        destruct (Nat.eq_dec p pos) as [->|Hne]; [congruence|].
        assert (nth pos l 0 < nth p l 0)%N by (apply Hs; lia). lia.
      + cbn. split; [|lia]. split; [lia|]. split; [lia|]. intros p Hp Ep. specialize (H3 p Hp Ep).
        destruct (Nat.eq_dec p pos) as [->|Hne]; [congruence|].
        destruct (Nat.lt_ge_cases p pos); [lia|].
        assert (nth pos l 0 < nth p l 0)%N by (apply Hs; lia). lia.
    - cbn. split; [|lia]. split; [lia|]. split; [lia|]. intros p Hp Ep. specialize (H3 p Hp Ep).
      destruct (Nat.eq_dec p pos) as [->|Hne]; [congruence|].
      destruct (Nat.lt_ge_cases pos p); [lia|].
      assert (nth p l 0 < nth pos l 0)%N by (apply Hs; lia). lia.
  Qed.

  Lemma next_geq_ok lb lo0 hi0 :
    hi0 < length l -> increasing_on l lo0 (hi0 + 1) ->
    exists r, next_geq acc itr lb lo0 hi0 = Ok r /\ is_first_geq l lo0 (hi0 + 1) lb r.
  Proof.
    intros Hh Hs. unfold next_geq.
    apply (loop_ok (next_geq_step acc itr lb)
      (fun s => lo0 <= fst s /\ snd s <= hi0 /\
         (forall p, lo0 <= p < fst s -> p <= hi0 -> (nth p l 0 < lb)%N) /\
         (snd s < hi0 -> fst s <= snd s /\ (lb <= nth (snd s) l 0)%N))
      (fun s => snd s + 1 - fst s)
      (fun r => is_first_geq l lo0 (hi0 + 1) lb r) ) with (s := (lo0, hi0));
      [| cbn; repeat split; lia | cbn; lia].
    intros [lo hi] (H1 & H2 & H3 & H4). cbn [fst snd] in *. cbn [next_geq_step].
    destruct (Nat.leb_spec lo hi) as [Hle|Hgt].
    2:{ cbn. intros p Hp. apply H3; lia. }
    destruct (Nat.leb_spec (hi - lo) LINEAR_SCAN_THRESHOLD) as [Hth|Hth].
    { destruct (scan_from_ok (fun v : N => (lb <=? v)%N) lo (hi - lo + 1) 0 ltac:(lia)) as [r [E Hr]].
      rewrite E. cbn [bind]. destruct r as [p|]; cbn.
      - destruct Hr as (A & B & C). split; [lia|]. split; [lia|].
        intros q Hq. destruct (Nat.lt_ge_cases q lo); [apply H3; lia|].
        specialize (C q ltac:(lia)). lia.
      - intros p Hp. destruct (Nat.lt_ge_cases p lo); [apply H3; lia|].
        destruct (Nat.eq_dec hi hi0) as [->|].
        + specialize (Hr p ltac:(lia)). lia.
        + specialize (Hr hi ltac:(lia)). lia. }
    unfold LINEAR_SCAN_THRESHOLD in Hth.
    assert (Hpos : lo < (lo + hi) / 2 < hi).
    { split; [apply Nat.div_le_lower_bound; lia|apply Nat.div_lt_upper_bound; lia]. }
    set (pos := (lo + hi) / 2) in *. clearbody pos.
    rewrite Hacc by lia. cbn [bind].
    assert (Hlow : forall q, lo0 <= q < pos -> (nth q l 0 < nth pos l 0)%N)
      by (intros; apply Hs; lia).
    destruct (N.ltb_spec lb (nth pos l 0%N)) as [Hlt|Hge].
    - destruct (Nat.eqb_spec pos 0); [lia|]. cbn [negb].
      rewrite Hacc by lia. cbn [bind].
      destruct (N.ltb_spec (nth (pos - 1) l 0%N) lb) as [Hl|Hl].
      + cbn. split; [lia|]. split; [lia|]. intros q Hq.
        destruct (Nat.eq_dec q (pos - 1)) as [->|]; [exact Hl|].
        assert (nth q l 0 < nth (pos - 1) l 0)%N by (apply Hs; lia). lia.
      + cbn. split; [|lia]. split; [lia|]. split; [lia|]. split; [exact H3|].
        intros _. split; [lia|exact Hl].
    - destruct (N.ltb_spec (nth pos l 0%N) lb) as [Hl|Hl].
      + cbn. split; [|lia]. split; [lia|]. split; [lia|]. split; [|intros Hx; specialize (H4 Hx); lia].
        intros p Hp Hph. destruct (Nat.eq_dec p pos) as [->|]; [exact Hl|].
        specialize (Hlow p ltac:(lia)). lia.
      + cbn. split; [lia|]. split; [lia|]. intros q Hq. specialize (Hlow q ltac:(lia)). lia.
  Qed.

  Lemma increasing_on_sub a b a' b' :
    increasing_on l a b -> a <= a' -> b' <= b -> increasing_on l a' b'.
  Proof. intros H Ha Hb i j Hi Hij Hj. apply H; lia. Qed.

  Lemma ef_find_range_ok b e x y :
    b <= e -> 0 < e -> e <= length l -> increasing_on l b e -> (x <= y)%N ->
    let pu := match b with O => 0%N | S b => nth b l 0%N end in
    exists q, ef_find_range acc itr b e x y = Ok q /\
      is_value_range l b e (x + pu) (y + pu) q.
  Proof.
    intros Hbe He Hel Hs Hxy pu. unfold ef_find_range.
    assert (Epu : prev_upper acc b = Ok pu).
    { unfold prev_upper, pu. destruct b; [reflexivity|]. apply Hacc. lia. }
    rewrite Epu. cbn [bind]. clearbody pu. destruct e as [|hi]; [lia|].
    destruct (next_geq_ok (x + pu) b hi) as [r [E Hr]]; [lia|eapply increasing_on_sub; eauto; lia|].
    rewrite E. cbn [bind]. destruct r as [p|].
    2:{ eexists; split; [reflexivity|]. split; [cbn; lia|]. split; [cbn; lia|]. cbn [fst snd].
        intros p Hp. cbn in Hr. specialize (Hr p ltac:(lia)). lia. }
    destruct Hr as (A & B & C).
    assert (Hmid : forall q, b <= q < S hi -> ((x + pu <= nth q l 0)%N <-> p <= q)).
    { intros q Hq. split.
      - intros Hx. destruct (Nat.le_gt_cases p q); [assumption|]. specialize (C q ltac:(lia)). lia.
      - intros Hx. destruct (Nat.eq_dec p q) as [->|]; [exact B|].
        assert (nth p l 0 < nth q l 0)%N by (apply Hs; lia). lia. }
    rewrite Hacc by lia. cbn [bind].
    destruct (N.ltb_spec (y + pu) (nth p l 0%N)) as [Hy|Hy].
    { eexists; split; [reflexivity|]. split; [cbn; lia|]. split; [cbn; lia|]. cbn [fst snd].
      intros q Hq. specialize (Hmid q Hq).
      destruct (Nat.lt_trichotomy p q) as [L|[->|L]]; try lia.
      assert (nth p l 0 < nth q l 0)%N by (apply Hs; lia). lia. }
    destruct (N.eqb_spec x y) as [->|Hne].
    { eexists; split; [reflexivity|]. split; [cbn; lia|]. split; [cbn; lia|]. cbn [fst snd].
      intros q Hq. specialize (Hmid q Hq).
      destruct (Nat.lt_trichotomy p q) as [L|[->|L]]; try lia.
      assert (nth p l 0 < nth q l 0)%N by (apply Hs; lia). lia. }
    destruct (next_geq_ok (y + pu) p hi) as [r2 [E2 Hr2]]; [lia|eapply increasing_on_sub; eauto; lia|].
    rewrite E2. cbn [bind]. destruct r2 as [p2|].
    2:{ eexists; split; [reflexivity|]. split; [cbn; lia|]. split; [cbn; lia|]. cbn [fst snd].
        intros q Hq. specialize (Hmid q Hq). split; [|lia]. intros Hx.
        cbn in Hr2. specialize (Hr2 q ltac:(lia)). lia. }
    destruct Hr2 as (A2 & B2 & C2).
    rewrite Hacc by lia. cbn [bind].
    eexists; split; [reflexivity|].
    destruct (N.eqb_spec (nth p2 l 0%N) (y + pu)) as [Ey|Ey]; cbn [negb];
      (split; [cbn; lia|]; split; [cbn; lia|]; cbn [fst snd]; intros q Hq; specialize (Hmid q Hq)).
    - destruct (Nat.lt_trichotomy p2 q) as [L|[->|L]]; try lia.
      + assert (nth p2 l 0 < nth q l 0)%N by (apply Hs; lia). lia.
      + destruct (Nat.le_gt_cases p q); [|lia]. specialize (C2 q ltac:(lia)). lia.
    - destruct (Nat.lt_trichotomy p2 q) as [L|[->|L]]; try lia.
      + assert (nth p2 l 0 < nth q l 0)%N by (apply Hs; lia). lia.
      + destruct (Nat.le_gt_cases p q); [|lia]. specialize (C2 q ltac:(lia)). lia.
  Qed.

  Lemma seq_find_ok b e x :
    b <= e -> 0 < e -> e <= length l -> increasing_on l b e ->
    let pu := match b with O => 0%N | S b => nth b l 0%N end in
    exists q, seq_find acc itr b e x = Ok q /\ is_position l b e (x + pu) q.
  Proof.
    intros Hbe He Hel Hs pu. unfold seq_find.
    assert (Epu : prev_upper acc b = Ok pu).
    { unfold prev_upper, pu. destruct b; [reflexivity|]. apply Hacc. lia. }
    rewrite Epu. cbn [bind]. clearbody pu. destruct e as [|hi]; [lia|].
    destruct (find_ok (x + pu) b hi) as [r [E Hr]]; [lia|eapply increasing_on_sub; eauto; lia|].
    exists r. split; [exact E|]. replace (S hi) with (hi + 1) by lia. exact Hr.
  Qed.

  (** uint_vec's range search is the same when a value of the range exists at or after [x]
      implies a hit; it differs only for x = y. *)
  Lemma uv_find_range_ok b e x y :
    b <= e -> 0 < e -> e <= length l -> increasing_on l b e -> (x < y)%N ->
    let pu := match b with O => 0%N | S b => nth b l 0%N end in
    exists q, uv_find_range acc itr b e x y = Ok q /\
      is_value_range l b e (x + pu) (y + pu) q.
  Proof.
    intros Hbe He Hel Hs Hxy pu. unfold uv_find_range.
    assert (Epu : prev_upper acc b = Ok pu).
    { unfold prev_upper, pu. destruct b; [reflexivity|]. apply Hacc. lia. }
    rewrite Epu. cbn [bind]. clearbody pu. destruct e as [|hi]; [lia|].
    destruct (next_geq_ok (x + pu) b hi) as [r [E Hr]]; [lia|eapply increasing_on_sub; eauto; lia|].
    rewrite E. cbn [bind]. destruct r as [p|].
    2:{ eexists; split; [reflexivity|]. split; [cbn; lia|]. split; [cbn; lia|]. cbn [fst snd].
        intros p Hp. cbn in Hr. specialize (Hr p ltac:(lia)). lia. }
    destruct Hr as (A & B & C).
    assert (Hmid : forall q, b <= q < S hi -> ((x + pu <= nth q l 0)%N <-> p <= q)).
    { intros q Hq. split.
      - intros Hx. destruct (Nat.le_gt_cases p q); [assumption|]. specialize (C q ltac:(lia)). lia.
      - intros Hx. destruct (Nat.eq_dec p q) as [->|]; [exact B|].
        assert (nth p l 0 < nth q l 0)%N by (apply Hs; lia). lia. }
    destruct (N.eqb_spec x y) as [->|Hne]; [lia|].
    destruct (next_geq_ok (y + pu) p hi) as [r2 [E2 Hr2]]; [lia|eapply increasing_on_sub; eauto; lia|].
    rewrite E2. cbn [bind]. destruct r2 as [p2|].
    2:{ eexists; split; [reflexivity|]. split; [cbn; lia|]. split; [cbn; lia|]. cbn [fst snd].
        intros q Hq. specialize (Hmid q Hq). split; [|lia]. intros Hx.
        cbn in Hr2. specialize (Hr2 q ltac:(lia)). lia. }
    destruct Hr2 as (A2 & B2 & C2).
    rewrite Hacc by lia. cbn [bind].
    eexists; split; [reflexivity|].
    destruct (N.eqb_spec (nth p2 l 0%N) (y + pu)) as [Ey|Ey]; cbn [negb];
      (split; [cbn; lia|]; split; [cbn; lia|]; cbn [fst snd]; intros q Hq; specialize (Hmid q Hq)).
    - destruct (Nat.lt_trichotomy p2 q) as [L|[->|L]]; try lia.
      + assert (nth p2 l 0 < nth q l 0)%N by (apply Hs; lia). lia.
      + destruct (Nat.le_gt_cases p q); [|lia]. specialize (C2 q ltac:(lia)). lia.
    - destruct (Nat.lt_trichotomy p2 q) as [L|[->|L]]; try lia.
      + assert (nth p2 l 0 < nth q l 0)%N by (apply Hs; lia). lia.
      + destruct (Nat.le_gt_cases p q); [|lia]. specialize (C2 q ltac:(lia)). lia.
  Qed.
End Reads.

(** * In-range prefix sums *)
Fixpoint gsums (prev : N) (gs : list (list N)) : list (list N) :=
  match gs with
  | [] => []
  | g :: gs' => map (fun v => (v + prev)%N) g :: gsums (last (map (fun v => (v + prev)%N) g) prev) gs'
  end.

Fixpoint offs (base : nat) (gs : list (list N)) : list nat :=
  match gs with
  | [] => []
  | g :: gs' => (base + length g) :: offs (base + length g) gs'
  end.

Lemma last_cons_d {A} (l : list A) : forall x d, last (x :: l) d = last l x.
Proof.
  induction l as [|y l IH]; intros x d; [reflexivity|].
  change (last (x :: y :: l) d) with (last (y :: l) d). now rewrite (IH y d), (IH y x).
Qed.

Lemma range_sums_ok extra : forall gs rest end_ run within prev lst,
  run = within + length rest ->
  range_sums (rest ++ concat gs) (offs end_ gs ++ extra) end_ run within prev lst =
  Ok (map (fun v => (v + prev)%N) rest ++
      concat (gsums (last (map (fun v => (v + prev)%N) rest) lst) gs)).
Proof.
  induction gs as [|g gs IHg].
  - induction rest as [|v rest IHr]; intros end_ run within prev lst Hrun; [reflexivity|].
    cbn [app range_sums]. cbn [length] in Hrun.
    destruct (Nat.eqb_spec within run); [lia|]. cbn [bind].
    rewrite (IHr end_ run (within + 1) prev (v + prev)%N) by lia. reflexivity.
  - induction rest as [|v rest IHr]; intros end_ run within prev lst Hrun.
    + cbn [app concat offs length map] in *. cbn [last].
      destruct g as [|x g].
      * cbn [app length gsums map concat]. rewrite Nat.add_0_r.
        pose proof (IHg [] end_ run within prev lst Hrun) as E0. cbn [app map last] in E0. cbn [last].
        destruct (concat gs) as [|y fr] eqn:Ec; [exact E0|].
        etransitivity; [|exact E0].
        cbn [range_sums]. destruct (Nat.eqb_spec within run); [|lia].
        cbn [next_run]. rewrite Nat.sub_diag. reflexivity.
      * cbn [app length gsums map concat range_sums].
        destruct (Nat.eqb_spec within run); [|lia].
        cbn [next_run].
        replace (end_ + S (length g) - end_) with (S (length g)) by lia.
        cbn [Nat.eqb bind].
        rewrite (IHg g (end_ + S (length g)) (S (length g)) (0 + 1) lst (x + lst)%N) by lia.
        cbn [bind]. rewrite last_cons_d. reflexivity.
    + cbn [app range_sums]. cbn [length] in Hrun.
      destruct (Nat.eqb_spec within run); [lia|]. cbn [bind].
      rewrite (IHr end_ run (within + 1) prev (v + prev)%N) by lia. cbn [bind map app].
      rewrite last_cons_d. reflexivity.
Qed.

Lemma group_begin_cons g gs k : group_begin (g :: gs) (S k) = length g + group_begin gs k.
Proof. unfold group_begin. cbn. apply app_length. Qed.

Lemma group_pointers_cons g gs :
  group_pointers (g :: gs) = 0 :: map (Nat.add (length g)) (group_pointers gs).
Proof.
  unfold group_pointers. cbn [length Nat.add seq map]. f_equal.
  rewrite map_map, <- seq_shift, map_map. apply map_ext. intros k. apply group_begin_cons.
Qed.

Lemma offs_pointers : forall gs base, base :: offs base gs = map (Nat.add base) (group_pointers gs).
Proof.
  induction gs as [|g gs IH]; intros base.
  - cbn. now rewrite Nat.add_0_r.
  - rewrite group_pointers_cons. cbn [offs map]. rewrite Nat.add_0_r. f_equal.
    rewrite IH, map_map. apply map_ext. intros; lia.
Qed.

Lemma build_range_sums_ok gs extra :
  gs <> [] -> build_range_sums (concat gs) (group_pointers gs ++ extra) = Ok (concat (gsums 0 gs)).
Proof.
  intros H. destruct gs as [|g gs]; [congruence|].
  assert (E : group_pointers (g :: gs) = 0 :: length g :: offs (length g) gs).
  { pose proof (offs_pointers (g :: gs) 0) as E. cbn [offs Nat.add] in E.
    rewrite E. symmetry. apply map_id. }
  rewrite E. cbn [app build_range_sums concat]. rewrite Nat.sub_0_r.
  rewrite range_sums_ok by reflexivity. reflexivity.
Qed.

Lemma gsums_length : forall gs prev, map (@length N) (gsums prev gs) = map (@length N) gs.
Proof. induction gs as [|g gs IH]; intros prev; cbn; [reflexivity|]. now rewrite IH, map_length. Qed.

Lemma concat_gsums_length gs prev : length (concat (gsums prev gs)) = length (concat gs).
Proof.
  revert prev; induction gs as [|g gs IH]; intros prev; cbn; [reflexivity|].
  now rewrite !app_length, IH, map_length.
Qed.

Lemma group_begin_le gs k : group_begin gs k <= length (concat gs).
Proof.
  unfold group_begin. rewrite <- (firstn_skipn k gs) at 2. rewrite concat_app, app_length. lia.
Qed.
Lemma group_begin_mono gs k : group_begin gs k <= group_begin gs (S k).
Proof.
  revert k; induction gs as [|g gs IH]; intros k; [unfold group_begin; destruct k; cbn; lia|].
  destruct k as [|k]; [unfold group_begin; cbn; lia|]. rewrite !group_begin_cons. specialize (IH k). lia.
Qed.

(** The value stored for position [p] of group [k] is the original one plus the value before
    the group. *)
Lemma gsums_nth : forall gs prev k p,
  group_begin gs k <= p < group_begin gs (S k) ->
  let vals := concat (gsums prev gs) in
  nth p vals 0%N = (nth p (concat gs) 0 +
                    match group_begin gs k with O => prev | S b => nth b vals 0 end)%N.
Proof.
  induction gs as [|g gs IH]; intros prev k p Hp.
  - unfold group_begin in Hp. destruct k; cbn in Hp; lia.
  - cbn [gsums concat]. set (g' := map _ g).
    assert (Lg : length g' = length g) by apply map_length.
    destruct k as [|k].
    + rewrite group_begin_cons in Hp. change (group_begin (g :: gs) 0) with 0 in *.
      change (group_begin gs 0) with 0 in Hp.
      cbv zeta.
      rewrite !app_nth1 by lia. unfold g'.
      rewrite (nth_indep _ 0%N (0 + prev)%N) by (fold g'; lia).
      now rewrite (map_nth (fun v => (v + prev)%N)).
    + rewrite !group_begin_cons in *. cbv zeta.
      rewrite !app_nth2 by lia. rewrite Lg.
      specialize (IH (last g' prev) k (p - length g) ltac:(lia)). cbv zeta in IH. rewrite IH.
      f_equal.
      destruct (group_begin gs k) as [|b] eqn:Eb.
      * rewrite Nat.add_0_r. destruct (length g) as [|n] eqn:En.
        -- destruct g' ; [reflexivity|cbn in Lg; lia].
        -- rewrite app_nth1 by lia.
           clear -Lg. clearbody g'. revert n prev Lg. induction g' as [|x g' IHg]; intros n prev Lg; [cbn in Lg; lia|].
           rewrite last_cons_d. destruct n as [|n].
           ++ destruct g'; [reflexivity|cbn in Lg; lia].
           ++ cbn [nth]. apply IHg. cbn in Lg. lia.
      * rewrite Nat.add_succ_r. rewrite app_nth2 by lia.
        rewrite Lg. now replace (length g + b - length g) with b by lia.
Qed.

(** Lifting the searches to the original values. *)
Section Lift.
  Variables (gs : list (list N)) (k : nat).
  Let b := group_begin gs k.
  Let e := group_begin gs (S k).
  Let vals := concat (gsums 0 gs).
  Let pu := match b with O => 0%N | S b => nth b vals 0%N end.
  Hypothesis Hinc : increasing_on (concat gs) b e.
  Hypothesis He : 0 < e.

  Lemma lift_nth p : b <= p < e -> nth p vals 0%N = (nth p (concat gs) 0 + pu)%N.
  Proof. intros Hp. exact (gsums_nth gs 0 k p Hp). Qed.

  Lemma lift_inc : increasing_on vals b e.
  Proof. intros i j Hi Hij Hj. rewrite !lift_nth by lia. specialize (Hinc i j Hi Hij Hj). lia. Qed.

  Lemma lift_e : e <= length vals.
  Proof. unfold vals. rewrite concat_gsums_length. apply group_begin_le. Qed.

  Lemma group_find_ok acc itr id : reads vals acc itr ->
    exists r, seq_find acc itr b e id = Ok r /\ is_position (concat gs) b e id r.
  Proof.
    intros [Ha Hi]. pose proof lift_e as Hle. pose proof (group_begin_mono gs k : b <= e) as Hbe.
    destruct (seq_find_ok acc itr vals Ha Hi b e id Hbe He Hle lift_inc) as [r [E Hr]].
    exists r. split; [exact E|]. fold pu in Hr. destruct r as [p|]; cbn in *.
    - destruct Hr as [H1 H2]. split; [exact H1|]. rewrite lift_nth in H2 by lia. lia.
    - intros p Hp. specialize (Hr p Hp). rewrite lift_nth in Hr by lia. lia.
  Qed.

  Lemma lift_value_range x y q :
    is_value_range vals b e (x + pu) (y + pu) q -> is_value_range (concat gs) b e x y q.
  Proof.
    intros (A & B & C). split; [exact A|]. split; [exact B|].
    intros p Hp. rewrite (C p Hp), lift_nth by lia. lia.
  Qed.

  Lemma group_ef_find_range_ok acc itr x y : reads vals acc itr -> (x <= y)%N ->
    exists q, ef_find_range acc itr b e x y = Ok q /\ is_value_range (concat gs) b e x y q.
  Proof.
    intros [Ha Hi] Hxy. pose proof lift_e as Hle. pose proof (group_begin_mono gs k : b <= e) as Hbe.
    destruct (ef_find_range_ok acc itr vals Ha Hi b e x y Hbe He Hle lift_inc Hxy) as [r [E Hr]].
    exists r. split; [exact E|]. now apply lift_value_range.
  Qed.

  Lemma group_uv_find_range_ok acc itr x y : reads vals acc itr -> (x < y)%N ->
    exists q, uv_find_range acc itr b e x y = Ok q /\ is_value_range (concat gs) b e x y q.
  Proof.
    intros [Ha Hi] Hxy. pose proof lift_e as Hle. pose proof (group_begin_mono gs k : b <= e) as Hbe.
    destruct (uv_find_range_ok acc itr vals Ha Hi b e x y Hbe He Hle lift_inc Hxy) as [r [E Hr]].
    exists r. split; [exact E|]. now apply lift_value_range.
  Qed.
End Lift.

(** What is given to the compressor is sorted. *)
Definition sortedN : list N -> Prop := Sorted.StronglySorted N.le.

Lemma sortedN_app a b :
  sortedN a -> sortedN b -> (forall x y, In x a -> In y b -> (x <= y)%N) -> sortedN (a ++ b).
Proof.
  unfold sortedN. induction a as [|x a IH]; intros Ha Hb H; [exact Hb|].
  inversion Ha; subst. cbn. constructor.
  - apply IH; auto. intros; apply H; [right|]; assumption.
  - apply Forall_app. split; [assumption|]. apply Forall_forall. intros; apply H; [left; reflexivity|assumption].
Qed.

Lemma sortedN_last : forall h p x, sortedN h -> In x h -> (x <= last h p)%N.
Proof.
  unfold sortedN. induction h as [|a h IH]; intros p x Hs Hx; [destruct Hx|].
  inversion Hs; subst. rewrite last_cons_d. destruct Hx as [->|Hx]; [|now apply IH].
  destruct h as [|b h]; [cbn; lia|]. rewrite Forall_forall in H2.
  transitivity b; [apply H2; now left|]. apply IH; [assumption|now left].
Qed.

Lemma last_ge : forall h p (q : N), (q <= p)%N -> (forall x, In x h -> (q <= x)%N) -> (q <= last h p)%N.
Proof.
  induction h as [|a h IH]; intros p q Hp H; [exact Hp|]. rewrite last_cons_d.
  apply IH; [apply H; now left|]. intros; apply H; now right.
Qed.

Lemma gsums_sorted : forall gs prev, Forall sortedN gs ->
  sortedN (concat (gsums prev gs)) /\ (forall v, In v (concat (gsums prev gs)) -> (prev <= v)%N).
Proof.
  induction gs as [|g gs IH]; intros prev Hg; cbn [gsums concat].
  - split; [constructor|intros v []].
  - inversion Hg; subst. set (g' := map _ g).
    assert (Sg : sortedN g').
    { unfold g'. clear -H1. unfold sortedN in *. induction H1; cbn; constructor; [assumption|].
      rewrite Forall_map. eapply Forall_impl; [|exact H]. cbn. intros; lia. }
    assert (Hge : forall x, In x g' -> (prev <= x)%N).
    { intros x Hx. apply in_map_iff in Hx. destruct Hx as (v & <- & _). lia. }
    destruct (IH (last g' prev) H2) as [A B].
    assert (Hl : (prev <= last g' prev)%N) by (apply last_ge; [lia|exact Hge]).
    split.
    + apply sortedN_app; [exact Sg|exact A|]. intros x y Hx Hy.
      transitivity (last g' prev); [now apply sortedN_last|now apply B].
    + intros v Hv. apply in_app_iff in Hv. destruct Hv as [Hv|Hv]; [now apply Hge|].
      apply B in Hv. lia.
Qed.

Lemma list_reads l : reads l (get l) (fun lo j => get l (lo + j)).
Proof. split; intros; now apply get_nth. Qed.

(** uint_vec's range search on a one-value range. *)
Lemma uv_find_range_refuted :
  let l := [1; 5]%N in
  uv_find_range (get l) (fun lo j => get l (lo + j)) 0 2 3 3 = Ok (1, 2) /\
  ~ is_value_range l 0 2 3 3 (1, 2).
Proof.
  split; [reflexivity|]. intros (_ & _ & H). specialize (H 1 ltac:(lia)). cbn in H. lia.
Qed.

(** Theorem-level statements. *)
Lemma group_end_pos gs k : k < length gs -> nth k gs [] <> [] -> 0 < group_begin gs (S k).
Proof.
  revert k; induction gs as [|g gs IH]; intros k Hk Hne; [cbn in Hk; lia|].
  rewrite group_begin_cons. destruct k as [|k].
  - cbn in Hne. destruct g; [congruence|]. cbn. lia.
  - specialize (IH k ltac:(cbn in Hk; lia) Hne). lia.
Qed.

Lemma level_vals gs : gs <> [] -> build_range_sums (concat gs) (group_pointers gs) = Ok (concat (gsums 0 gs)).
Proof. intros H. rewrite <- (app_nil_r (group_pointers gs)). now apply build_range_sums_ok. Qed.

Lemma level_find gs k :
  k < length gs -> nth k gs [] <> [] ->
  increasing_on (concat gs) (group_begin gs k) (group_begin gs (S k)) ->
  exists vals,
    build_range_sums (concat gs) (group_pointers gs) = Ok vals /\
    forall acc itr id, reads vals acc itr ->
    exists r,
      seq_find acc itr (group_begin gs k) (group_begin gs (S k)) id = Ok r /\
      is_position (concat gs) (group_begin gs k) (group_begin gs (S k)) id r.
Proof.
  intros Hk Hne Hinc. eexists. split; [apply level_vals; intros ->; cbn in Hk; lia|].
  intros acc itr id Hr. apply group_find_ok; auto. now apply group_end_pos.
Qed.

Lemma level_ef_find_range gs k :
  k < length gs -> nth k gs [] <> [] ->
  increasing_on (concat gs) (group_begin gs k) (group_begin gs (S k)) ->
  exists vals,
    build_range_sums (concat gs) (group_pointers gs) = Ok vals /\
    forall acc itr x y, reads vals acc itr -> (x <= y)%N ->
    exists q,
      ef_find_range acc itr (group_begin gs k) (group_begin gs (S k)) x y = Ok q /\
      is_value_range (concat gs) (group_begin gs k) (group_begin gs (S k)) x y q.
Proof.
  intros Hk Hne Hinc. eexists. split; [apply level_vals; intros ->; cbn in Hk; lia|].
  intros acc itr x y Hr Hxy. apply group_ef_find_range_ok; auto. now apply group_end_pos.
Qed.

Lemma level_uv_find_range gs k :
  k < length gs -> nth k gs [] <> [] ->
  increasing_on (concat gs) (group_begin gs k) (group_begin gs (S k)) ->
  exists vals,
    build_range_sums (concat gs) (group_pointers gs) = Ok vals /\
    forall acc itr x y, reads vals acc itr -> (x < y)%N ->
    exists q,
      uv_find_range acc itr (group_begin gs k) (group_begin gs (S k)) x y = Ok q /\
      is_value_range (concat gs) (group_begin gs k) (group_begin gs (S k)) x y q.
Proof.
  intros Hk Hne Hinc. eexists. split; [apply level_vals; intros ->; cbn in Hk; lia|].
  intros acc itr x y Hr Hxy. apply group_uv_find_range_ok; auto. now apply group_end_pos.
Qed.
