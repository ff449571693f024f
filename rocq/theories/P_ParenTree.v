(** Searching the tree of superblock minima for the closest superblock, on either side, with a minimum not above a given excess. *)
From Coq Require Import ZArith.
From Verif Require Import Base M_Bp M_Paren P_Scan P_BpTree.
Local Open Scope nat_scope.

Lemma even_node c h H lo : 2 * c * 2 ^ h = 2 ^ H + lo -> lo + 2 ^ h <= 2 ^ H -> lo + 2 * 2 ^ h <= 2 ^ H.
Proof.
  intros E1 H1. pose proof (pow_pos h) as Hp. destruct (Nat.eq_dec lo 0) as [->|Hlo].
  - destruct (Nat.eq_dec (2 ^ h) (2 ^ H)) as [E2|]; [rewrite <- E2 in E1; clear - E1 Hp; set (K := 2 ^ h) in *; clearbody K; destruct c; nia|]. assert (h < H). { apply (Nat.pow_lt_mono_r_iff 2); lia. }
    replace H with (h + 1 + (H - h - 1)) by lia. rewrite Nat.pow_add_r, pow_S. pose proof (pow_pos (H - h - 1)). nia.
  - assert (h < H). { apply (Nat.pow_lt_mono_r_iff 2); lia. } replace H with (h + 1 + (H - h - 1)) in * by lia. rewrite Nat.pow_add_r, pow_S in *. set (K := 2 ^ h) in *. set (M := 2 ^ (H - h - 1)) in *. clearbody K M.
    assert (c < 2 * M) by nia. nia.
Qed.

Section Search.
  Variables (tree : list Z) (internal H nsb : nat) (sm : nat -> Z) (big e : Z).
  Hypothesis Ht : tree_ok tree internal H nsb sm.
  Definition val (c : nat) : Z := if c <? length tree then nth c tree 0%Z else big.
  Hypothesis Hnode : forall v, 1 <= v < internal -> nth v tree 0%Z = Z.min big (Z.min (val (2 * v)) (val (2 * v + 1))).
  Hypothesis He : (e < big)%Z.

  (** Node v of height h has the leaves lo, ..., lo + 2^h - 1; those from nsb on do not exist. *)
  Definition node (v h lo : nat) : Prop := 1 <= v /\ v * 2 ^ h = internal + lo /\ lo + 2 ^ h <= internal.
  Lemma node_inner v h lo : node v (S h) lo -> v < internal /\ node (2 * v) h lo /\ node (2 * v + 1) h (lo + 2 ^ h).
  Proof. intros (H1 & H2 & H3). rewrite Nat.pow_succ_r' in *. pose proof (pow_pos h). unfold node. split; [nia|]. split; (split; [lia|split; nia]). Qed.
  Lemma val_le h : forall v lo, node v h lo -> (val v <= e)%Z <-> exists s, lo <= s < lo + 2 ^ h /\ s < nsb /\ (sm s <= e)%Z.
  Proof.
    pose proof (to_len _ _ _ _ _ Ht) as Hl. pose proof (to_fit _ _ _ _ _ Ht) as Hf. induction h as [|h IH]; intros v lo Hv.
    - destruct Hv as (H1 & H2 & H3). cbn in H2, H3. unfold val. rewrite Hl. destruct (Nat.ltb_spec v (internal + nsb)).
      + replace v with (internal + lo) by lia. rewrite (to_leaf _ _ _ _ _ Ht) by lia. split; [intros Hle; exists lo; cbn; split; [lia|split; [lia|assumption]]|].
        intros (s & Hs & _ & Hle). cbn in Hs. replace s with lo in Hle by lia. assumption.
      + split; [lia|]. intros (s & Hs & Hn & _). cbn in Hs. lia.
    - destruct (node_inner v h lo Hv) as (Hi & Hleft & Hright). destruct Hv as (H1 & _). unfold val. rewrite Hl. destruct (Nat.ltb_spec v (internal + nsb)); [|lia]. rewrite Hnode by lia.
      pose proof (IH _ _ Hleft) as IL. pose proof (IH _ _ Hright) as IR. rewrite Nat.pow_succ_r'. split.
      + intros Hle. destruct (Z.le_gt_cases (val (2 * v)) e) as [Hc|Hc].
        * apply IL in Hc. destruct Hc as (s & Hs & Hc). exists s. split; [lia|assumption].
        * assert (Hd : (val (2 * v + 1) <= e)%Z) by lia. apply IR in Hd. destruct Hd as (s & Hs & Hd). exists s. split; [lia|assumption].
      + intros (s & Hs & Hn & Hle). destruct (Nat.lt_ge_cases s (lo + 2 ^ h)).
        * assert ((val (2 * v) <= e)%Z) by (apply IL; exists s; split; [lia|split; assumption]). lia.
        * assert ((val (2 * v + 1) <= e)%Z) by (apply IR; exists s; split; [lia|split; assumption]). lia.
  Qed.
  Lemma in_range v h lo : node v h lo -> v < length tree -> exists b, in_node_range tree v e = Ok b /\ (b = true <-> exists s, lo <= s < lo + 2 ^ h /\ s < nsb /\ (sm s <= e)%Z).
  Proof.
    intros Hv Hl. unfold in_node_range. rewrite (get_nth tree v 0%Z) by assumption. cbn [bind]. eexists. split; [reflexivity|]. rewrite <- (val_le h v lo Hv). unfold val.
    destruct (Nat.ltb_spec v (length tree)); [|lia]. rewrite Z.leb_le. reflexivity.
  Qed.
  (** Nodes with an existing leaf exist. *)
  Lemma node_exists v h lo : node v h lo -> lo < nsb -> v < length tree.
  Proof. intros (H1 & H2 & H3) Hlo. rewrite (to_len _ _ _ _ _ Ht). pose proof (pow_pos h). nia. Qed.
  Lemma leaf_node v h lo : node v h lo -> internal <= v -> h = 0 /\ v = internal + lo.
  Proof.
    intros (H1 & H2 & H3) Hi. destruct h as [|h]; [cbn in H2; split; [reflexivity|lia]|]. rewrite Nat.pow_succ_r' in *. pose proof (pow_pos h). nia.
  Qed.

  Lemma half cur : cur mod 2 = 1 -> cur = 2 * (cur / 2) + 1 /\ Nat.even cur = false.
  Proof. intros Hc. pose proof (Nat.div_mod cur 2 ltac:(lia)) as Hd. rewrite Hc in Hd. split; [assumption|]. rewrite Hd, Nat.even_add, Nat.even_mul. reflexivity. Qed.
  Lemma half0 cur : cur mod 2 = 0 -> cur = 2 * (cur / 2).
  Proof. intros Hc. pose proof (Nat.div_mod cur 2 ltac:(lia)) as Hd. lia. Qed.

  Section Up.
    Variables s0 sb : nat.
    Hypothesis Hs : s0 < sb /\ sb < nsb.
    Hypothesis Hsb : (sm sb <= e)%Z.
    Hypothesis Hno : forall s, s0 < s < sb -> (e < sm s)%Z.
    Definition covers (cur : nat) : Prop := exists h lo, node cur h lo /\ lo <= sb < lo + 2 ^ h /\ s0 < lo.
    Lemma climb_up : exists cur, loop (internal + s0 + 1) (climb_step true tree e) (internal + s0) = Ok cur /\ covers cur.
    Proof.
      pose proof (to_len _ _ _ _ _ Ht) as Hl. pose proof (to_fit _ _ _ _ _ Ht) as Hf. pose proof (to_pow _ _ _ _ _ Ht) as Hp.
      apply (loop_ok _ (fun cur => exists h lo, node cur h lo /\ lo <= s0 /\ s0 < lo + 2 ^ h /\ lo + 2 ^ h <= sb) (fun cur => cur)); [|exists 0, s0; cbn; unfold node; cbn; lia|lia].
      intros cur (h & lo & Hn & H1 & H2 & H3). pose proof Hn as (N1 & N2 & N3). unfold climb_step. pose proof (pow_pos h) as Hh. destruct (Nat.eqb_spec (cur mod 2) 1) as [Hodd|Heven].
      - destruct (half cur Hodd) as [Ec Hev]. assert (cur <> 1). { intros E1. rewrite E1 in N2. lia. }
        rewrite Hp in N2. pose proof (odd_node cur h H lo N2 Hev ltac:(assumption)) as Ho. rewrite <- Hp in N2.
        split; [|lia]. exists (S h), (lo - 2 ^ h). rewrite Nat.pow_succ_r'. unfold node. rewrite Nat.pow_succ_r'. split; [split; [lia|split; [nia|lia]]|lia].
      - assert (Hev : cur mod 2 = 0) by (pose proof (Nat.mod_upper_bound cur 2); lia). pose proof (half0 cur Hev) as Ec.
        assert (Hup : lo + 2 * 2 ^ h <= internal). { rewrite Hp in *. apply (even_node (cur / 2) h H lo); [nia|lia]. }
        assert (Hnx : node (cur + 1) h (lo + 2 ^ h)) by (split; [lia|split; [nia|lia]]).
        destruct (in_range _ _ _ Hnx (node_exists _ _ _ Hnx ltac:(lia))) as (b & -> & Hb). cbn [bind]. destruct b.
        + exists h, (lo + 2 ^ h). split; [assumption|]. split; [|lia]. split; [lia|]. destruct Hb as [Hb _]. destruct (Hb eq_refl) as (s & Hr & _ & Hle).
          destruct (Nat.lt_ge_cases s sb) as [Hlt|]; [|lia]. specialize (Hno s ltac:(lia)). lia.
        + split; [|lia]. exists (S h), lo. rewrite Nat.pow_succ_r'. unfold node. rewrite Nat.pow_succ_r'. split; [split; [lia|split; [nia|lia]]|].
          split; [lia|]. split; [lia|]. destruct (Nat.le_gt_cases (lo + 2 * 2 ^ h) sb); [assumption|]. exfalso. destruct Hb as [_ Hb]. discriminate Hb. exists sb. split; [lia|split; [lia|assumption]].
    Qed.
    Lemma descend_up cur : covers cur -> loop (internal + 1) (descend_step true tree internal e) cur = Ok (internal + sb).
    Proof.
      pose proof (to_len _ _ _ _ _ Ht) as Hl. pose proof (to_fit _ _ _ _ _ Ht) as Hf. intros Hc.
      destruct (loop_ok (descend_step true tree internal e) covers (fun cur => internal - cur) (fun r => r = internal + sb)) with (fuel := internal + 1) (s := cur) as (r & Hr & ->); [|assumption|lia|exact Hr].
      clear cur Hc. intros cur (h & lo & Hn & H1 & H2). unfold descend_step. destruct (Nat.ltb_spec cur internal) as [Hi|Hi].
      - destruct h as [|h]; [destruct Hn as (_ & Hn & _); cbn in Hn; lia|]. destruct (node_inner _ _ _ Hn) as (_ & NL & NR). rewrite Nat.pow_succ_r' in H1. pose proof (pow_pos h).
        replace (cur * 2 + 0) with (2 * cur) by lia. destruct (in_range _ _ _ NL (node_exists _ _ _ NL ltac:(lia))) as (b & -> & Hb). cbn [bind]. destruct Hn as (N1 & _). destruct b.
        + split; [|lia]. exists h, lo. split; [assumption|]. split; [|lia]. split; [lia|]. destruct Hb as [Hb _]. destruct (Hb eq_refl) as (s & Hr & _ & Hle).
          destruct (Nat.lt_ge_cases s sb) as [Hlt|]; [|lia]. specialize (Hno s ltac:(lia)). lia.
        + split; [|lia]. exists h, (lo + 2 ^ h). split; [assumption|]. split; [|lia]. split; [|lia]. destruct (Nat.le_gt_cases (lo + 2 ^ h) sb); [assumption|]. exfalso. destruct Hb as [_ Hb]. discriminate Hb.
          exists sb. split; [lia|split; [lia|assumption]].
      - destruct (leaf_node _ _ _ Hn Hi) as [-> ->]. cbn in H1. lia.
    Qed.
  End Up.

  Section Down.
    Variables s0 sb : nat.
    Hypothesis Hs : sb < s0 /\ s0 < nsb.
    Hypothesis Hsb : (sm sb <= e)%Z.
    Hypothesis Hno : forall s, sb < s < s0 -> (e < sm s)%Z.
    Definition covers0 (cur : nat) : Prop := exists h lo, node cur h lo /\ lo <= sb < lo + 2 ^ h /\ lo + 2 ^ h <= s0.
    Lemma climb_down : exists cur, loop (internal + s0 + 1) (climb_step false tree e) (internal + s0) = Ok cur /\ covers0 cur.
    Proof.
      pose proof (to_len _ _ _ _ _ Ht) as Hl. pose proof (to_fit _ _ _ _ _ Ht) as Hf. pose proof (to_pow _ _ _ _ _ Ht) as Hp.
      apply (loop_ok _ (fun cur => exists h lo, node cur h lo /\ lo <= s0 /\ s0 < lo + 2 ^ h /\ sb < lo) (fun cur => cur)); [|exists 0, s0; cbn; unfold node; cbn; lia|lia].
      intros cur (h & lo & Hn & H1 & H2 & H3). pose proof Hn as (N1 & N2 & N3). unfold climb_step. pose proof (pow_pos h) as Hh. destruct (Nat.eqb_spec (cur mod 2) 0) as [Heven|Hodd].
      - pose proof (half0 cur Heven) as Ec. assert (Hup : lo + 2 * 2 ^ h <= internal). { rewrite Hp in *. apply (even_node (cur / 2) h H lo); [nia|lia]. }
        split; [|lia]. exists (S h), lo. rewrite Nat.pow_succ_r'. unfold node. rewrite Nat.pow_succ_r'. split; [split; [lia|split; [nia|lia]]|lia].
      - assert (Hod : cur mod 2 = 1) by (pose proof (Nat.mod_upper_bound cur 2); lia). destruct (half cur Hod) as [Ec Hev]. assert (cur <> 1). { intros E1. rewrite E1 in N2. lia. }
        rewrite Hp in N2. pose proof (odd_node cur h H lo N2 Hev ltac:(assumption)) as Ho. rewrite <- Hp in N2.
        assert (Hnx : node (cur - 1) h (lo - 2 ^ h)) by (split; [lia|split; [nia|lia]]).
        destruct (in_range _ _ _ Hnx (node_exists _ _ _ Hnx ltac:(lia))) as (b & -> & Hb). cbn [bind]. destruct b.
        + exists h, (lo - 2 ^ h). split; [assumption|]. split; [|lia]. split; [|lia]. destruct Hb as [Hb _]. destruct (Hb eq_refl) as (s & Hr & _ & Hle).
          destruct (Nat.lt_ge_cases sb s) as [Hlt|]; [|lia]. specialize (Hno s ltac:(lia)). lia.
        + split; [|lia]. exists (S h), (lo - 2 ^ h). rewrite Nat.pow_succ_r'. unfold node. rewrite Nat.pow_succ_r'. split; [split; [lia|split; [nia|lia]]|].
          split; [lia|]. split; [lia|]. destruct (Nat.lt_ge_cases sb (lo - 2 ^ h)); [assumption|]. exfalso. destruct Hb as [_ Hb]. discriminate Hb. exists sb. split; [lia|split; [lia|assumption]].
    Qed.
    Lemma descend_down cur : covers0 cur -> loop (internal + 1) (descend_step false tree internal e) cur = Ok (internal + sb).
    Proof.
      pose proof (to_len _ _ _ _ _ Ht) as Hl. pose proof (to_fit _ _ _ _ _ Ht) as Hf. intros Hc.
      destruct (loop_ok (descend_step false tree internal e) covers0 (fun cur => internal - cur) (fun r => r = internal + sb)) with (fuel := internal + 1) (s := cur) as (r & Hr & ->); [|assumption|lia|exact Hr].
      clear cur Hc. intros cur (h & lo & Hn & H1 & H2). unfold descend_step. destruct (Nat.ltb_spec cur internal) as [Hi|Hi].
      - destruct h as [|h]; [destruct Hn as (_ & Hn & _); cbn in Hn; lia|]. destruct (node_inner _ _ _ Hn) as (_ & NL & NR). rewrite Nat.pow_succ_r' in H1, H2. pose proof (pow_pos h).
        replace (cur * 2 + 1) with (2 * cur + 1) by lia. destruct (in_range _ _ _ NR (node_exists _ _ _ NR ltac:(lia))) as (b & -> & Hb). cbn [bind]. destruct Hn as (N1 & _). destruct b.
        + split; [|lia]. exists h, (lo + 2 ^ h). split; [assumption|]. split; [|lia]. split; [|lia]. destruct Hb as [Hb _]. destruct (Hb eq_refl) as (s & Hr & _ & Hle).
          destruct (Nat.lt_ge_cases sb s) as [Hlt|]; [|lia]. specialize (Hno s ltac:(lia)). lia.
        + split; [|lia]. exists h, lo. replace (2 * cur + 1 - 1) with (2 * cur) by lia. split; [assumption|]. split; [|lia]. split; [lia|]. destruct (Nat.lt_ge_cases sb (lo + 2 ^ h)); [assumption|]. exfalso. destruct Hb as [_ Hb]. discriminate Hb.
          exists sb. split; [lia|split; [lia|assumption]].
      - destruct (leaf_node _ _ _ Hn Hi) as [-> ->]. cbn in H1. lia.
    Qed.
  End Down.
End Search.
