(** Posting lists: reading, histories of operations, next_geq. *)
From Coq Require Import Sorted.
From Verif Require Import Base M_Trie M_Word M_Bits M_EfSeq M_CompactEf M_InvIndex S_Lists P_EfSeq P_CompactEf P_CompactIt P_InvIndex.
Local Open Scope nat_scope.

Lemma wf_good u lists : wf_lists u lists -> small u /\ Forall (good_list u) lists /\ (N.of_nat (length (concat lists)) < 2 ^ 54)%N.
Proof.
  intros [Hu Hs Hne Hso Hb Ht]. split; [now apply small_32|]. split.
  - assert (Hlen : forall l, In l lists -> length l <= length (concat lists)).
    { intros l Hl. apply in_split in Hl as (l1 & l2 & ->). rewrite concat_app, app_length. cbn [concat]. rewrite app_length. lia. }
    rewrite Forall_forall in *. intros l Hl. split; [now apply Hne|]. split; [now apply sorted_nondec, Hso|]. split; [now apply Hb|]. specialize (Hlen l Hl). unfold small. assert (2 ^ 40 < 2 ^ 55)%N by reflexivity. lia.
  - assert (2 ^ 40 < 2 ^ 54)%N by reflexivity. lia.
Qed.

Lemma ngeq_first l x q : is_first_geq l x q -> q = ngeq l x.
Proof.
  intros (H1 & H2 & H3). pose proof (ngeq_le l x). destruct (Nat.lt_trichotomy q (ngeq l x)) as [L|[E|L]]; [|assumption|].
  - pose proof (ngeq_below l x q L). specialize (H3 ltac:(lia)). lia.
  - specialize (H2 _ L). pose proof (ngeq_at l x ltac:(lia)). lia.
Qed.
Lemma ngeq_is_first l x : is_first_geq l x (ngeq l x).
Proof. split; [apply ngeq_le|]. split; [intros i Hi; now apply ngeq_below|apply ngeq_at]. Qed.

Lemma at_shows tail u l it p : list_at tail u it l p -> shows u l it p.
Proof. intros H. split; [eapply la_pos, H|]. split; [eapply la_size, H|]. split; [eapply la_val, H|eapply la_prev, H]. Qed.
Lemma ops_at tail u l ops p r : lops_move u l ops p r -> forall it, list_at tail u it l p -> exists it', lops_run ops it = Ok it' /\ list_at tail u it' l r.
Proof.
  induction 1 as [p|op ops p q r Hop Hops IH]; intros it Hat; cbn [lops_run]; [now exists it|].
  assert (Hs : exists it', lop_run op it = Ok it' /\ list_at tail u it' l q).
  { destruct op as [|i|x]; cbn [lop_run lop_moves] in *; destruct Hop as [H1 H2].
    - subst q. now apply la_next.
    - subst q. now apply (la_access tail u l it p).
    - rewrite (ngeq_first _ _ _ H2). apply (la_geq tail u l it p x Hat). tauto. }
  destruct Hs as (it' & -> & Hat'). cbn [bind]. now apply IH.
Qed.

Lemma posting_lists_ok : forall u lists tail, wf_lists u lists -> (tail < 2 ^ 64)%N ->
  exists ii, inv_build u lists = Ok ii /\ inv_terms ii = length lists /\
    forall t l, nth_error lists t = Some l -> exists it, inv_iterator tail ii t = Ok it /\ c_size it = length l /\
      forall fuel, length l < fuel -> c_collect fuel it = Ok l.
Proof.
  intros u lists tail H Ht. destruct (wf_good u lists H) as (Hu & Hg & Htot).
  destruct (inv_build_ok u lists tail Hu Ht (wl_some _ _ H) Hg Htot) as (ii & E & En & Hit). exists ii. split; [assumption|]. split; [assumption|].
  intros t l Hl. destruct (Hit t l Hl) as (it & Ei & Hat). exists it. split; [assumption|]. split; [eapply la_size, Hat|].
  intros fuel Hf. rewrite (collect_ok tail u l fuel it 0 Hat) by lia. reflexivity.
Qed.

Lemma history_ok : forall u lists tail ii t l ops q, wf_lists u lists -> (tail < 2 ^ 64)%N -> inv_build u lists = Ok ii ->
  nth_error lists t = Some l -> lops_move u l ops 0 q ->
  exists it it', inv_iterator tail ii t = Ok it /\ lops_run ops it = Ok it' /\ shows u l it' q.
Proof.
  intros u lists tail ii t l ops q H Ht Eb Hl Hm. destruct (wf_good u lists H) as (Hu & Hg & Htot).
  destruct (inv_build_ok u lists tail Hu Ht (wl_some _ _ H) Hg Htot) as (ii' & E & En & Hit). rewrite Eb in E. injection E as <-.
  destruct (Hit t l Hl) as (it & Ei & Hat). destruct (ops_at tail u l ops 0 q Hm it Hat) as (it' & E' & Hat'). exists it, it'.
  split; [assumption|]. split; [assumption|]. eapply at_shows, Hat'.
Qed.

Lemma next_geq_first : forall u lists tail ii t l ops p x, wf_lists u lists -> (tail < 2 ^ 64)%N -> inv_build u lists = Ok ii ->
  nth_error lists t = Some l -> StronglySorted N.lt l -> lops_move u l ops 0 p -> (nth p l u <= x)%N -> (x <= u)%N \/ p < length l ->
  exists it it' it'' q, inv_iterator tail ii t = Ok it /\ lops_run ops it = Ok it' /\ c_next_geq it' x = Ok it'' /\
    p <= q /\ is_first_geq l x q /\ c_pos it'' = q /\ c_val it'' = nth q l u.
Proof.
  intros u lists tail ii t l ops p x H Ht Eb Hl Hs Hm Hx Hux. destruct (wf_good u lists H) as (Hu & Hg & Htot).
  destruct (inv_build_ok u lists tail Hu Ht (wl_some _ _ H) Hg Htot) as (ii' & E & En & Hit). rewrite Eb in E. injection E as <-.
  destruct (Hit t l Hl) as (it & Ei & Hat). destruct (ops_at tail u l ops 0 p Hm it Hat) as (it' & E' & Hat').
  destruct (la_geq tail u l it' p x Hat' Hux) as (it'' & E'' & Hat''). exists it, it', it'', (ngeq l x).
  repeat (split; [assumption|]). split; [|split; [apply ngeq_is_first|split; [eapply la_pos, Hat''|eapply la_val, Hat'']]].
  pose proof (la_le _ _ _ _ _ Hat') as Hp. destruct (Nat.le_gt_cases p (ngeq l x)) as [|L]; [assumption|exfalso].
  pose proof (ngeq_at l x ltac:(lia)) as Ha. destruct (Nat.eq_dec p (length l)) as [Ep|Ep].
  - rewrite Ep, nth_overflow in Hx by lia. assert (Hb : Forall (fun v => (v < u)%N) l) by (pose proof (wl_below _ _ H) as Hb; rewrite Forall_forall in Hb; apply Hb; eapply nth_error_In, Hl).
    rewrite Forall_forall in Hb. assert (Hlx : ngeq l x < length l) by lia. specialize (Hb _ (nth_In l 0%N Hlx)). lia.
  - rewrite (nth_indep l u 0%N) in Hx by lia. assert (Hlt : (nth (ngeq l x) l 0 < nth p l 0)%N); [|lia].
    assert (Hlen : p < length l) by lia. clear -Hs L Hlen. revert L Hlen. generalize (ngeq l x) as i. intros i. revert i p. induction Hs as [|v l Hs IH Hv]; intros i p L Hlen; cbn [length] in Hlen; [lia|].
    destruct p; [lia|]. destruct i; cbn [nth]; [|apply IH; lia]. rewrite Forall_forall in Hv. apply Hv, nth_In. lia.
Qed.

