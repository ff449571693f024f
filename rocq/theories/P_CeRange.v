(** Proofs about M_CeRange. *)
From Coq Require Import Sorted.
From Verif Require Import Base M_CompactEf M_InvIndex S_Lists P_InvIndex P_Lists M_CeRange.
Local Open Scope nat_scope.

Section R.
  Variables (tail u : N) (l : list N).
  Hypothesis Hs : StronglySorted N.le l.
  Hypothesis Hne : l <> [].
  Lemma le_nth i j : i <= j < length l -> (nth i l 0 <= nth j l 0)%N.
  Proof.
    clear Hne. revert i j. induction Hs as [|x m Hm IH Hx]; intros i j Hij; [cbn in Hij; lia|]. cbn [length] in Hij. destruct j as [|j]; [replace i with 0 by lia; lia|].
    destruct i as [|i]; cbn [nth]; [|apply IH; [assumption|lia]]. rewrite Forall_forall in Hx. apply Hx, nth_In. lia.
  Qed.
  Lemma range_none lo hi p : (forall j, j < p -> (nth j l 0 < lo)%N \/ (hi < nth j l 0)%N) -> (p < length l -> (hi < nth p l 0)%N) ->
    ~ exists v, In v l /\ (lo <= v <= hi)%N.
  Proof.
    intros Hb Hp (v & Hv & Hr). apply (In_nth _ _ 0%N) in Hv as (j & Hj & <-). destruct (Nat.lt_ge_cases j p) as [L|L]; [specialize (Hb j L); lia|].
    specialize (Hp ltac:(lia)). pose proof (le_nth p j ltac:(lia)). lia.
  Qed.
  Lemma c_from_ok lo hi cnt : forall it p, list_at tail u it l p -> p + 1 + cnt = length l -> (forall j, j <= p -> (nth j l 0 < lo)%N \/ (hi < nth j l 0)%N) ->
    exists b, c_intersects_from cnt it lo hi = Ok b /\ (b = true <-> exists v, In v l /\ (lo <= v <= hi)%N).
  Proof.
    induction cnt as [|cnt IH]; intros it p Hat Hp Hb; cbn [c_intersects_from].
    - exists false. split; [reflexivity|]. split; [discriminate|]. intros H. exfalso. revert H. apply (range_none lo hi (p + 1)); [|lia]. intros j Hj. apply Hb. lia.
    - destruct (la_next _ _ _ it p Hat ltac:(lia)) as (it' & -> & Hat'). cbn [bind]. rewrite (la_val _ _ _ _ _ Hat'), (nth_indep l u 0%N) by lia.
      destruct (N.ltb_spec hi (nth (p + 1) l 0%N)) as [L|L].
      + exists false. split; [reflexivity|]. split; [discriminate|]. intros H. exfalso. revert H. apply (range_none lo hi (p + 1)); [|intros _; exact L]. intros j Hj. apply Hb. lia.
      + destruct (N.leb_spec lo (nth (p + 1) l 0%N)) as [L1|L1]; cbn [andb].
        * destruct (N.leb_spec (nth (p + 1) l 0%N) hi); [|lia]. exists true. split; [reflexivity|]. split; [intros _|reflexivity]. exists (nth (p + 1) l 0%N). split; [apply nth_In; lia|lia].
        * apply (IH it' (p + 1) Hat'); [lia|]. intros j Hj. destruct (Nat.eq_dec j (p + 1)) as [->|E]; [left; exact L1|]. apply Hb. lia.
  Qed.
  Lemma c_intersects_ok it p lo hi : list_at tail u it l p ->
    exists b, c_intersects it lo hi = Ok b /\ (b = true <-> exists v, In v l /\ (lo <= v <= hi)%N).
  Proof.
    intros Hat. assert (Hl : 0 < length l) by (destruct l; [congruence|cbn; lia]). unfold c_intersects. destruct (la_access _ _ _ it p 0 Hat ltac:(lia)) as (it' & -> & Hat'). cbn [bind].
    rewrite (la_val _ _ _ _ _ Hat'), (nth_indep l u 0%N), (la_size _ _ _ _ _ Hat') by lia. destruct (N.ltb_spec hi (nth 0 l 0%N)) as [L|L].
    - exists false. split; [reflexivity|]. split; [discriminate|]. intros H. exfalso. revert H. apply (range_none lo hi 0); [intros j Hj; lia|intros _; exact L].
    - destruct (N.leb_spec lo (nth 0 l 0%N)) as [L1|L1]; cbn [andb].
      + destruct (N.leb_spec (nth 0 l 0%N) hi); [|lia]. exists true. split; [reflexivity|]. split; [intros _|reflexivity]. exists (nth 0 l 0%N). split; [apply nth_In; lia|lia].
      + apply (c_from_ok lo hi _ it' 0 Hat'); [lia|]. intros j Hj. replace j with 0 by lia. left. exact L1.
  Qed.
End R.

Lemma range_ok : forall u lists tail ii t l ops p lo hi, wf_lists u lists -> (tail < 2 ^ 64)%N -> inv_build u lists = Ok ii ->
  nth_error lists t = Some l -> lops_move u l ops 0 p ->
  exists it it' b, inv_iterator tail ii t = Ok it /\ lops_run ops it = Ok it' /\ c_intersects it' lo hi = Ok b /\ (b = true <-> exists v, In v l /\ (lo <= v <= hi)%N).
Proof.
  intros u lists tail ii t l ops p lo hi H Ht Eb Hl Hm. destruct (wf_good u lists H) as (Hu & Hg & Htot).
  destruct (inv_build_ok u lists tail Hu Ht (wl_some _ _ H) Hg Htot) as (ii' & E & En & Hit). rewrite Eb in E. injection E as <-.
  destruct (Hit t l Hl) as (it & Ei & Hat). destruct (ops_at tail u l ops 0 p Hm it Hat) as (it' & E' & Hat').
  pose proof (wl_sorted _ _ H) as H1. pose proof (wl_nonempty _ _ H) as H2. rewrite Forall_forall in H1, H2. pose proof (nth_error_In _ _ Hl) as Hin.
  destruct (c_intersects_ok tail u l (H1 l Hin) (H2 l Hin) it' p lo hi Hat') as (b & Ec & Hb). exists it, it', b. auto.
Qed.
