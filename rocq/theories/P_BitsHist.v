(** Sequences of operations on builders, readers and iterators. *)
From Verif Require Import Base M_Word S_Bits P_Word M_Bits P_Bits P_Rank P_BitsRead P_BitsIter.
Local Open Scope nat_scope.

Lemma upd_overwrite {A} (l : list A) pos b : pos < length l -> upd l pos b = overwrite l pos [b].
Proof.
  intros H. apply nth_ext with (d := b) (d' := b).
  - rewrite upd_length, overwrite_length; [reflexivity|cbn; lia].
  - intros i Hi. rewrite upd_length in Hi. rewrite upd_nth, overwrite_nth by (cbn; lia). cbn [length].
    destruct (Nat.ltb_spec pos (length l)); [|lia]. rewrite andb_true_r.
    destruct (Nat.leb_spec pos i), (Nat.ltb_spec i (pos + 1)), (Nat.eqb_spec pos i) as [<-|]; try (exfalso; lia); cbn [andb]; try reflexivity.
    now rewrite Nat.sub_diag.
Qed.

Lemma bvb_op_ok b l o : bvb_ok b l -> bop_legal l o -> exists b', bvb_op b o = Ok b' /\ bvb_ok b' (bop_meaning l o).
Proof.
  intros H L. destruct o; cbn [bvb_op bop_meaning bop_legal] in *.
  - now apply push_ok.
  - apply append_bits_ok; tauto.
  - rewrite <- upd_overwrite by assumption. now apply set_ok_bit.
  - apply set_bits_ok; tauto.
  - eexists; split; [reflexivity|]. now apply zero_extend_ok.
  - now apply reverse_ok.
Qed.
Lemma bvb_ops_ok os : forall b l, bvb_ok b l -> bops_legal l os -> exists b', bvb_ops b os = Ok b' /\ bvb_ok b' (bops_meaning l os).
Proof.
  induction os as [|o os IH]; intros b l H L; [exists b; now split|]. destruct L as [L1 L2].
  destruct (bvb_op_ok b l o H L1) as (b1 & E & H1). cbn [bvb_ops]. rewrite E. cbn [bind]. exact (IH b1 _ H1 L2).
Qed.

Lemma history os : bops_legal [] os ->
  exists b, bvb_ops bvb_empty os = Ok b /\ b_size b = length (bops_meaning [] os) /\
    (forall i, i < b_size b -> bv_get (bv_build b) i = Ok (nth i (bops_meaning [] os) false)) /\
    (forall pos len, pos + len <= b_size b -> len < 64 -> bv_get_bits (bv_build b) pos len = Ok (number (firstn len (skipn pos (bops_meaning [] os))))).
Proof.
  intros L. destruct (bvb_ops_ok os bvb_empty [] empty_ok L) as (b & E & [Hr Hs Hc]). exists b. split; [assumption|]. split; [assumption|]. split.
  - intros i Hi. apply get_list; [exact Hr|congruence].
  - intros pos len Hf Hl. apply get_bits_list; [exact Hr|assumption|congruence].
Qed.

Lemma bi_get_all_ok ws l : repr ws l -> forall lens it, bi_ok ws it -> Forall (fun len => len <= 64) lens -> bi_pos it + list_sum lens <= length l ->
  exists it', bi_get_all ws it lens = Ok (fields l (bi_pos it) lens, it') /\ bi_pos it' = bi_pos it + list_sum lens.
Proof.
  intros Hr. induction lens as [|len lens IH]; intros it Hok Hl Hfit; cbn [list_sum fold_right bi_get_all fields] in *.
  - exists it. split; [reflexivity|lia].
  - inversion Hl as [|? ? H1 H2]; subst. fold (list_sum lens) in Hfit.
    destruct (bi_get_bits_ok ws it len) as (r & it1 & -> & Hf & Ep & Hok1 & _); [apply Hr|assumption|assumption|apply (repr_fit _ l); [assumption|lia]|].
    cbn [bind]. destruct (IH it1 Hok1 H2) as (it2 & -> & Ep2); [lia|]. cbn [bind]. exists it2. split.
    + rewrite (field_number ws l _ _ r Hr Hf), Ep. reflexivity.
    + fold (list_sum lens). lia.
Qed.

Lemma filter_seq_split (f : nat -> bool) q n p : q <= p < q + n -> f p = true -> (forall j, q <= j < p -> f j = false) ->
  filter f (seq q n) = p :: filter f (seq (p + 1) (n - (p + 1 - q))).
Proof.
  intros Hp Hf Hgap. replace n with ((p - q) + (1 + (n - (p + 1 - q)))) at 1 by lia. rewrite seq_app, filter_app.
  replace (filter f (seq q (p - q))) with (@nil nat).
  - cbn [app]. replace (q + (p - q)) with p by lia. rewrite seq_app, filter_app. cbn [seq filter]. rewrite Hf. reflexivity.
  - symmetry. assert (H : forall x, In x (seq q (p - q)) -> f x = false) by (intros x Hx; apply in_seq in Hx; apply Hgap; lia).
    clear -H. induction (seq q (p - q)) as [|x l IH]; [reflexivity|]. cbn [filter]. rewrite (H x) by (now left). apply IH. intros y Hy. apply H. now right.
Qed.
Lemma filter_seq_first (f : nat -> bool) q n : filter f (seq q n) = [] \/ exists p, q <= p < q + n /\ f p = true /\ forall j, q <= j < p -> f j = false.
Proof.
  revert q; induction n as [|n IH]; intros q; [now left|]. cbn [seq filter]. destruct (f q) eqn:E.
  - right. exists q. repeat split; [lia|lia|assumption|lia].
  - destruct (IH (S q)) as [H|(p & H1 & H2 & H3)]; [now left|]. right. exists p. repeat split; [lia|lia|assumption|].
    intros j Hj. destruct (Nat.eq_dec j q) as [->|]; [assumption|]. apply H3. lia.
Qed.
Lemma ui_take_ok ws l fuel : repr ws l -> length ws < fuel -> forall n u q, ui_ok ws u q -> 64 * (u_pos u / 64) <= q <= 64 * (u_pos u / 64 + 1) ->
  n <= length (ones_from l q) -> ui_take ws fuel u n = Ok (firstn n (ones_from l q)).
Proof.
  intros Hr Hf. induction n as [|n IH]; intros u q Hok Hq Hn; [reflexivity|].
  unfold ones_from in *. set (f := fun i => nth i l false) in *.
  destruct (filter_seq_first f q (length l - q)) as [E|(p & Hp & Hfp & Hgap)]; [rewrite E in Hn; cbn in Hn; lia|].
  rewrite (filter_seq_split f q _ p Hp Hfp Hgap) in *. cbn [length firstn ui_take] in *.
  replace (length l - q - (p + 1 - q)) with (length l - (p + 1)) in * by lia.
  assert (Hpl : p < length l) by lia. pose proof (repr_fit ws l (S p) Hr Hpl) as Hpw.
  destruct (ui_next_ok ws u q p fuel) as (u' & -> & Eu & Hok'); try assumption; try lia.
  - apply Hr.
  - now rewrite (repr_bits _ _ Hr).
  - intros j Hj. rewrite (repr_bits _ _ Hr). now apply Hgap.
  - cbn [bind]. rewrite (IH u' (p + 1)); [reflexivity|assumption| |lia].
    rewrite Eu. pose proof (Nat.div_mod p 64 ltac:(lia)). pose proof (Nat.mod_upper_bound p 64 ltac:(lia)). lia.
Qed.
Lemma ui_all ws l fuel pos : repr ws l -> pos < length l -> length ws < fuel ->
  exists u, ui_new ws pos = Ok u /\ forall n, n <= length (ones_from l pos) -> ui_take ws fuel u n = Ok (firstn n (ones_from l pos)).
Proof.
  intros Hr Hp Hf. destruct (ui_new_ok ws pos) as (u & E & Eu & Hok); [apply Hr|apply (repr_fit ws l (S pos)); [assumption|lia]|].
  exists u. split; [assumption|]. intros n Hn. apply ui_take_ok; try assumption. rewrite Eu.
  pose proof (Nat.div_mod pos 64 ltac:(lia)). pose proof (Nat.mod_upper_bound pos 64 ltac:(lia)). lia.
Qed.
