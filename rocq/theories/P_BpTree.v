(** The tree of superblock minima: the leftmost minimum of a range of leaves. *)
From Coq Require Import ZArith.
From Verif Require Import Base M_Bp P_Scan.
Local Open Scope nat_scope.

Record tree_ok (tree : list Z) (internal H nsb : nat) (sm : nat -> Z) : Prop := {
  to_len : length tree = internal + nsb;
  to_pow : internal = 2 ^ H;
  to_fit : nsb <= internal;
  to_leaf : forall s, s < nsb -> nth (internal + s) tree 0%Z = sm s;
  to_node : forall v, 1 <= v < internal -> 2 * v + 1 < internal + nsb -> nth v tree 0%Z = Z.min (nth (2 * v) tree 0%Z) (nth (2 * v + 1) tree 0%Z)
}.

Lemma pow_pos h : 1 <= 2 ^ h.
Proof. induction h as [|h IH]; cbn; lia. Qed.
Lemma pow_S h : 2 ^ (h + 1) = 2 * 2 ^ h.
Proof. rewrite Nat.add_1_r. cbn. lia. Qed.
(** Only the root is an odd node whose subtree starts before its left sibling could. *)
Lemma odd_node cur h H lo : cur * 2 ^ h = 2 ^ H + lo -> Nat.even cur = false -> cur <> 1 -> 2 ^ h <= lo.
Proof.
  intros E Ho Hne. destruct (Nat.le_gt_cases (2 ^ h) lo) as [|Hlt]; [assumption|exfalso].
  pose proof (pow_pos h). destruct (Nat.le_gt_cases h H) as [Hh|Hh].
  - replace H with (h + (H - h)) in E by lia. rewrite Nat.pow_add_r in E.
    assert (lo = 0).
    { assert (Hm : lo mod 2 ^ h = 0). { replace lo with ((cur - 2 ^ (H - h)) * 2 ^ h) by (rewrite Nat.mul_sub_distr_r; lia). apply Nat.mod_mul. lia. }
      rewrite Nat.mod_small in Hm by assumption. assumption. }
    subst lo. assert (Ec : cur = 2 ^ (H - h)) by nia. destruct (H - h) as [|d]; [cbn in Ec; lia|]. rewrite Ec in Ho. cbn [Nat.pow] in Ho.
    rewrite Nat.even_mul in Ho. discriminate.
  - assert (2 ^ H < 2 ^ h) by (apply Nat.pow_lt_mono_r; lia). pose proof (pow_pos H). destruct cur as [|[|cur]]; [lia|lia|nia].
Qed.

Section Tree.
  Variables (tree : list Z) (internal H nsb : nat) (sm : nat -> Z).
  Hypothesis Ht : tree_ok tree internal H nsb sm.
  Notation T v := (nth v tree 0%Z).

  (** A node of height h whose leaves lo, ..., lo + 2^h - 1 all exist. *)
  Definition full (v h lo : nat) : Prop := v * 2 ^ h = internal + lo /\ lo + 2 ^ h <= nsb.
  Lemma full_bounds v h lo : full v h lo -> 1 <= v < length tree.
  Proof. intros [E1 E2]. rewrite (to_len _ _ _ _ _ Ht). pose proof (pow_pos h). pose proof (to_fit _ _ _ _ _ Ht). split; nia. Qed.
  Lemma full_leaf v h lo : full v h lo -> internal <= v -> h = 0 /\ v = internal + lo.
  Proof. intros [E1 E2] Hv. pose proof (to_fit _ _ _ _ _ Ht). destruct h as [|h]; [cbn in E1; lia|]. pose proof (pow_pos h). cbn in E1, E2. exfalso. nia. Qed.
  Lemma full_inner v h lo : full v h lo -> v < internal -> exists h', h = S h' /\ full (2 * v) h' lo /\ full (2 * v + 1) h' (lo + 2 ^ h').
  Proof. intros [E1 E2] Hv. destruct h as [|h]; [cbn in E1; lia|]. exists h. split; [reflexivity|]. unfold full. cbn [Nat.pow] in *. split; split; lia. Qed.
  Lemma full_min h : forall v lo, full v h lo -> is_min sm lo (lo + 2 ^ h) (T v).
  Proof.
    induction h as [|h IH]; intros v lo Hf.
    - destruct Hf as [E1 E2]. cbn in *. replace v with (internal + lo) by lia. rewrite (to_leaf _ _ _ _ _ Ht) by lia. now apply is_min_one.
    - destruct (Nat.lt_ge_cases v internal) as [Hv|Hv]; [|destruct (full_leaf _ _ _ Hf Hv); discriminate].
      destruct (full_inner _ _ _ Hf Hv) as (h' & E & H1 & H2). injection E as <-.
      rewrite (to_node _ _ _ _ _ Ht); [|pose proof (full_bounds _ _ _ Hf); lia|pose proof (full_bounds _ _ _ H2); rewrite (to_len _ _ _ _ _ Ht) in *; lia].
      apply (is_min_app _ _ (lo + 2 ^ h) (lo + 2 ^ h)); [lia|cbn; lia|now apply IH|]. replace (lo + 2 ^ S h) with (lo + 2 ^ h + 2 ^ h) by (cbn; lia). now apply IH.
  Qed.
  Lemma full_get v h lo : full v h lo -> get tree v = Ok (T v).
  Proof. intros Hf. apply get_nth. apply (full_bounds _ _ _ Hf). Qed.

  Variables start stop : nat.
  Hypothesis Hss : start + 1 < stop.
  Hypothesis Hstop : stop <= nsb.

  (** The best full subtree among leaves start, ..., x - 1: its minimum is theirs and no leaf before it attains it. *)
  Definition best (x : nat) (mn : Z) (mi : nat) : Prop :=
    exists h lo, full mi h lo /\ start <= lo /\ lo + 2 ^ h <= x /\ T mi = mn /\ is_min sm start x mn /\ forall s, start <= s < lo -> (mn < sm s)%Z.
  Lemma best_next x mn mi v h : best x mn mi -> full v h x -> best (x + 2 ^ h) (if (T v <? mn)%Z then T v else mn) (if (T v <? mn)%Z then v else mi).
  Proof.
    intros (h0 & lo & Hf & H1 & H2 & H3 & H4 & H5) Hv. pose proof (full_min _ _ _ Hv) as Hm. pose proof (pow_pos h). pose proof (pow_pos h0).
    destruct (Z.ltb_spec (T v) mn) as [Hl|Hl].
    - exists h, x. split; [assumption|]. split; [lia|]. split; [lia|]. split; [reflexivity|]. split.
      + replace (T v) with (Z.min mn (T v)) by lia. apply (is_min_app _ _ x x); [lia|lia|assumption|assumption].
      + intros s Hs. pose proof (is_min_le _ _ _ _ s H4). lia.
    - exists h0, lo. split; [assumption|]. split; [lia|]. split; [lia|]. split; [assumption|]. split; [|assumption].
      replace mn with (Z.min mn (T v)) by lia. apply (is_min_app _ _ x x); [lia|lia|assumption|assumption].
  Qed.

  (** After going up: node [cur] of height h covers lo, ..., span with lo <= stop - 1 <= span. *)
  Definition at_node (cur h lo span : nat) : Prop := cur * 2 ^ h = internal + lo /\ span + 1 = lo + 2 ^ h.
  Lemma up_ok mn : best (start + 1) mn (internal + start) ->
    exists cur h span mn' mi, loop (internal + start + 1) (up_step tree stop) (internal + start, 0, start, mn, internal + start) = Ok (cur, h, span, mn', mi) /\
      exists lo, at_node cur h lo span /\ lo <= stop - 1 <= span /\ start < lo /\ (best lo mn' mi \/ span = stop - 1 /\ best stop mn' mi).
  Proof.
    intros Hb0. pose proof (to_fit _ _ _ _ _ Ht) as Hfit. pose proof (to_pow _ _ _ _ _ Ht) as Hpow.
    set (I := fun st : nat * nat * nat * Z * nat => let '(cur, h, span, mn, mi) := st in
       exists lo, at_node cur h lo span /\ lo <= start /\ start <= span < stop - 1 /\ best (span + 1) mn mi).
    set (Q := fun st : nat * nat * nat * Z * nat => let '(cur, h, span, mn', mi) := st in
       exists lo, at_node cur h lo span /\ lo <= stop - 1 <= span /\ start < lo /\ (best lo mn' mi \/ span = stop - 1 /\ best stop mn' mi)).
    destruct (loop_ok (up_step tree stop) I (fun st => fst (fst (fst (fst st)))) Q) with (fuel := internal + start + 1) (s := (internal + start, 0, start, mn, internal + start))
      as ((((( cur & h) & span) & mn') & mi) & E & HQ).
    - intros ((((cur & h) & span) & m) & mi) (lo & (Ha1 & Ha2) & Hlo & Hsp & Hb). unfold up_step. pose proof (pow_pos h) as Hph.
      assert (Hc1 : cur <> 1). { intros ->. lia. }
      assert (Hc0 : cur <> 0). { intros ->. pose proof (pow_pos H). lia. }
      destruct (Nat.even cur) eqn:Hev.
      + assert (Hf : span + 2 ^ h < stop -> full (cur + 1) h (span + 1)) by (intros; split; lia).
        assert (Hhalf : cur / 2 * 2 ^ (h + 1) = internal + lo). { rewrite pow_S. pose proof (Nat.div_mod cur 2) as Hd. apply Nat.even_spec in Hev as [c ->]. rewrite (Nat.mul_comm 2 c), Nat.div_mul by lia. lia. }
        assert (Hdec : cur / 2 < cur) by (apply Nat.div_lt; lia).
        destruct (Nat.ltb_spec (span + 2 ^ h) stop) as [Hl|Hl].
        * rewrite (full_get _ _ _ (Hf Hl)). cbn [bind]. pose proof (best_next _ _ _ _ _ Hb (Hf Hl)) as Hn.
          replace (if (T (cur + 1) <? m)%Z then (T (cur + 1), cur + 1) else (m, mi)) with ((if (T (cur + 1) <? m)%Z then T (cur + 1) else m), (if (T (cur + 1) <? m)%Z then cur + 1 else mi)) by (now destruct (_ <? m)%Z).
          destruct (Nat.leb_spec (stop - 1) (span + 2 ^ h)).
          -- unfold Q. exists (span + 1). split; [split; lia|]. split; [lia|]. split; [lia|]. right. split; [lia|]. replace stop with (span + 1 + 2 ^ h) by lia. assumption.
          -- unfold I. split; [|cbn [fst]; lia]. exists lo. unfold at_node. rewrite pow_S. split; [rewrite pow_S in Hhalf; lia|]. split; [assumption|]. split; [lia|].
             replace (span + 2 ^ h + 1) with (span + 1 + 2 ^ h) by lia. assumption.
        * cbn [bind]. destruct (Nat.leb_spec (stop - 1) (span + 2 ^ h)); [|lia]. unfold Q. exists (span + 1). split; [split; lia|]. split; [lia|]. split; [lia|]. now left.
      + pose proof (odd_node cur h H lo) as Hodd. rewrite Hpow in Ha1. specialize (Hodd Ha1 Hev Hc1).
        assert (Hhalf : cur / 2 * 2 ^ (h + 1) = internal + (lo - 2 ^ h)).
        { rewrite pow_S. assert (Hod : Nat.odd cur = true) by (unfold Nat.odd; now rewrite Hev). apply Nat.odd_spec in Hod as [c ->].
          replace ((2 * c + 1) / 2) with c by (apply (Nat.div_unique _ 2 _ 1); lia). lia. }
        split; [|cbn [fst]; apply Nat.div_lt; lia]. unfold I. exists (lo - 2 ^ h). split; [split; [assumption|rewrite pow_S; lia]|]. split; [lia|]. split; assumption.
    - unfold I. exists start. split; [split; cbn; lia|]. split; [lia|]. split; [lia|]. assumption.
    - cbn. lia.
    - exists cur, h, span, mn', mi. split; [exact E|exact HQ].
  Qed.

  Lemma down_ok cur h span mn mi lo : at_node cur h lo span -> lo <= stop - 1 <= span -> start < lo -> (best lo mn mi \/ span = stop - 1 /\ best stop mn mi) ->
    exists cur' mn' mi', loop (h + 1) (down_step tree stop) (cur, h, span, mn, mi) = Ok (cur', stop - 1, mn', mi') /\
      exists h' lo', full cur' h' lo' /\ start < lo' /\ lo' + 2 ^ h' = stop /\ (best lo' mn' mi' \/ best stop mn' mi').
  Proof.
    intros Ha Hlo Hst Hb.
    set (I := fun (n : nat) (st : nat * nat * nat * Z * nat) => let '(cur, h, span, mn, mi) := st in n = h /\
       exists lo, at_node cur h lo span /\ lo <= stop - 1 <= span /\ start < lo /\ (best lo mn mi \/ span = stop - 1 /\ best stop mn mi)).
    set (Q := fun st : nat * nat * Z * nat => let '(cur', span', mn', mi') := st in span' = stop - 1 /\
      exists h' lo', full cur' h' lo' /\ start < lo' /\ lo' + 2 ^ h' = stop /\ (best lo' mn' mi' \/ best stop mn' mi')).
    destruct (loop_ok_n (down_step tree stop) I Q) with (fuel := h + 1) (n := h) (s := (cur, h, span, mn, mi)) as ((((cur' & span') & mn') & mi') & E & -> & HQ).
    - clear cur h span mn mi lo Ha Hlo Hst Hb. intros n ((((cur & h) & span) & m) & mi) (-> & lo & (Ha1 & Ha2) & Hlo & Hst & Hb). unfold down_step.
      destruct (Nat.ltb_spec (stop - 1) span) as [Hl|Hl].
      + destruct h as [|h]; [cbn in Ha2; lia|]. replace (S h - 1) with h by lia. cbn [Nat.pow] in Ha1, Ha2.
        destruct Hb as [Hb|[Hb _]]; [|lia]. destruct (Nat.leb_spec (stop - 1) (span - 2 ^ h)) as [Hg|Hg].
        * exists h. split; [lia|]. unfold I. split; [reflexivity|]. exists lo. split; [split; lia|]. split; [lia|]. split; [assumption|]. now left.
        * assert (Hf : full (cur * 2) h lo) by (split; lia). rewrite (full_get _ _ _ Hf). cbn [bind]. exists h. split; [lia|]. unfold I. split; [reflexivity|].
          exists (lo + 2 ^ h). split; [split; lia|]. split; [lia|]. split; [lia|]. left. now apply best_next.
      + unfold Q. split; [lia|]. exists h, lo. split; [split; lia|]. split; [assumption|]. split; [lia|]. destruct Hb as [Hb|[_ Hb]]; [now left|now right].
    - unfold I. split; [reflexivity|]. now exists lo.
    - lia.
    - exists cur', mn', mi'. split; [exact E|exact HQ].
  Qed.

  Lemma leaf_ok mn mi : best stop mn mi ->
    exists s, loop (internal + 1) (leaf_step tree internal) mi = Ok (internal + s) /\ start <= s < stop /\ sm s = mn /\ (forall q, start <= q < stop -> (mn <= sm q)%Z) /\ (forall q, start <= q < s -> (mn < sm q)%Z).
  Proof.
    intros (h & lo & Hf & H1 & H2 & H3 & H4 & H5).
    set (I := fun v => exists h lo, full v h lo /\ start <= lo /\ lo + 2 ^ h <= stop /\ T v = mn /\ forall s, start <= s < lo -> (mn < sm s)%Z).
    set (Q := fun v => exists s, v = internal + s /\ start <= s < stop /\ sm s = mn /\ forall q, start <= q < s -> (mn < sm q)%Z).
    destruct (loop_ok (leaf_step tree internal) I (fun v => internal - v) Q) with (fuel := internal + 1) (s := mi) as (r & E & s & -> & Hs & Es & Hq).
    - clear mi h lo Hf H1 H2 H3 H5. intros v (h & lo & Hf & H1 & H2 & H3 & H5). unfold leaf_step. destruct (Nat.ltb_spec v internal) as [Hv|Hv].
      + destruct (full_inner _ _ _ Hf Hv) as (h' & -> & F0 & F1). rewrite (Nat.mul_comm v 2). rewrite (full_get _ _ _ F0), (full_get _ _ _ F1). cbn [bind].
        rewrite (to_node _ _ _ _ _ Ht) in H3; [|pose proof (full_bounds _ _ _ Hf); lia|pose proof (full_bounds _ _ _ F1); rewrite (to_len _ _ _ _ _ Ht) in *; lia].
        pose proof (full_bounds _ _ _ Hf). cbn [Nat.pow] in H2. destruct (Z.ltb_spec (T (2 * v + 1)) (T (2 * v))).
        * split; [|lia]. exists h', (lo + 2 ^ h'). split; [assumption|]. split; [lia|]. split; [lia|]. split; [lia|]. intros s Hs.
          destruct (Nat.lt_ge_cases s lo); [apply H5; lia|]. pose proof (is_min_le _ _ _ _ s (full_min _ _ _ F0)). lia.
        * split; [|lia]. exists h', lo. split; [assumption|]. split; [lia|]. split; [lia|]. split; [lia|]. assumption.
      + destruct (full_leaf _ _ _ Hf Hv) as [-> ->]. exists lo. cbn in H2. split; [reflexivity|]. split; [lia|]. split; [|assumption]. rewrite <- H3. symmetry. apply (to_leaf _ _ _ _ _ Ht). lia.
    - now exists h, lo.
    - lia.
    - exists s. split; [exact E|]. split; [assumption|]. split; [assumption|]. split; [|assumption]. intros q Hq'. now apply (is_min_le _ _ _ _ _ H4).
  Qed.
End Tree.

Lemma find_min_superblock_ok p H nsb sm start stop m : tree_ok (bp_tree p) (bp_internal p) H nsb sm -> start <= stop <= nsb ->
  exists v k, find_min_superblock p start stop m None = Ok (v, k) /\ ((v < m)%Z /\ scan sm start stop m v k \/ (m <= v)%Z /\ scan sm start stop m m None).
Proof.
  intros Ht Hss. unfold find_min_superblock. destruct (Nat.eqb_spec start stop) as [->|Hne].
  { exists m, None. split; [reflexivity|]. right. split; [lia|]. now apply scan_empty. }
  assert (Hleaf : full (bp_internal p) nsb (bp_internal p + start) 0 start) by (split; cbn; lia).
  rewrite (full_get _ _ _ _ _ Ht _ _ _ Hleaf). cbn [bind]. rewrite (to_leaf _ _ _ _ _ Ht) by lia.
  destruct (Nat.eqb_spec (stop - start) 1) as [H1|H1].
  { exists (sm start), (Some start). split; [reflexivity|]. replace stop with (start + 1) by lia. pose proof (scan_one sm start m) as Hs.
    destruct (Z.ltb_spec (sm start) m); [left|right]; (split; [lia|assumption]). }
  assert (Hss' : start + 1 < stop) by lia. assert (Hstop : stop <= nsb) by lia.
  assert (Hb : best (bp_tree p) (bp_internal p) nsb sm start (start + 1) (sm start) (bp_internal p + start)).
  { exists 0, start. split; [assumption|]. split; [lia|]. split; [cbn; lia|]. split; [apply (to_leaf _ _ _ _ _ Ht); lia|]. split; [now apply is_min_one|]. intros; lia. }
  destruct (up_ok _ _ _ _ _ Ht _ _ Hss' Hstop _ Hb) as (cur & h & span & mn & mi & -> & lo & Ha & Hlo & Hst & Hb1). cbn [bind].
  destruct (down_ok _ _ _ _ _ Ht _ _ Hss' Hstop _ _ _ _ _ _ Ha Hlo Hst Hb1) as (cur' & mn' & mi' & -> & h' & lo' & Hf & Hst' & Elo & Hb2). cbn [bind].
  destruct (Nat.ltb_spec (stop - 1) stop); [|lia]. rewrite (full_get _ _ _ _ _ Ht _ _ _ Hf). cbn [bind].
  assert (Hfin : exists mn2 mi2, (if (nth cur' (bp_tree p) 0%Z <? mn')%Z then (nth cur' (bp_tree p) 0%Z, cur') else (mn', mi')) = (mn2, mi2) /\ best (bp_tree p) (bp_internal p) nsb sm start stop mn2 mi2).
  { destruct Hb2 as [Hb2|Hb2].
    - pose proof (best_next _ _ _ _ _ Ht _ _ Hss' Hstop _ _ _ _ _ Hb2 Hf) as Hn. rewrite Elo in Hn. destruct (_ <? mn')%Z; do 2 eexists; (split; [reflexivity|exact Hn]).
    - pose proof (full_min _ _ _ _ _ Ht _ _ _ Hf) as Hm. destruct Hb2 as (h0 & lo0 & B1 & B2 & B3 & B4 & B5 & B6). pose proof (pow_pos h').
      destruct (Z.ltb_spec (nth cur' (bp_tree p) 0%Z) mn') as [Hl|Hl].
      + exfalso. destruct Hm as [(q & Hq & Eq) _]. pose proof (is_min_le _ _ _ _ q B5). lia.
      + do 2 eexists. split; [reflexivity|]. exists h0, lo0. tauto. }
  destruct Hfin as (mn2 & mi2 & -> & Hb3). destruct (Z.ltb_spec mn2 m) as [Hl|Hl].
  - destruct (leaf_ok _ _ _ _ _ Ht _ _ Hss' Hstop _ _ Hb3) as (s & -> & Hs & Es & Hall & Hbef). cbn [bind]. replace (bp_internal p + s - bp_internal p) with s by lia.
    exists mn2, (Some s). split; [reflexivity|]. left. split; [assumption|]. cbn. tauto.
  - exists m, None. split; [reflexivity|]. right. split; [lia|]. split; [reflexivity|]. intros q Hq. destruct Hb3 as (? & ? & _ & _ & _ & _ & B5 & _). pose proof (is_min_le _ _ _ _ q B5 Hq). lia.
Qed.
