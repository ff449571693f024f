(** Balanced sequences, matching and enclosing pairs, in terms of the excess; find_close, find_open and enclose on a built vector. *)
From Coq Require Import ZArith.
From Verif Require Import Base S_Bits S_Paren M_Word M_Bits P_BitsRead P_Word P_Bits P_BitsHist M_Rs P_Rank P_Rs P_Scan P_BpWord P_BpBuild M_Bp M_Paren P_Paren.
Local Open Scope nat_scope.

Fixpoint ex (l : list bool) : Z := match l with [] => 0%Z | b :: l => ((if b then 1 else -1) + ex l)%Z end.
Lemma ex_app a b : ex (a ++ b) = (ex a + ex b)%Z.
Proof. induction a as [|x a IH]; cbn [app ex]; lia. Qed.
Lemma ex_E l f q : (forall i, f i = nth i l false) -> q <= length l -> E f q = ex (firstn q l).
Proof.
  intros Hf. induction q as [|q IH]; intros Hq; [apply E_0|]. rewrite E_S, IH by lia. rewrite Hf.
  assert (Hs : firstn (S q) l = firstn q l ++ [nth q l false]).
  { clear -Hq. revert q Hq. induction l as [|x l IH]; intros q Hq; cbn in Hq; [lia|]. destruct q as [|q]; [reflexivity|]. cbn [firstn nth app]. f_equal. apply IH. lia. }
  rewrite Hs, ex_app. cbn [ex]. lia.
Qed.
(** The excess before position r. *)
Definition at_ (l : list bool) (r : nat) : Z := ex (firstn r l).
Lemma at_app_l a b r : r <= length a -> at_ (a ++ b) r = at_ a r.
Proof. intros H. unfold at_. rewrite firstn_app. replace (r - length a) with 0 by lia. cbn [firstn]. now rewrite app_nil_r. Qed.
Lemma at_app_r a b r : length a <= r -> at_ (a ++ b) r = (ex a + at_ b (r - length a))%Z.
Proof. intros H. unfold at_. rewrite firstn_app, firstn_all2 by lia. apply ex_app. Qed.
Lemma at_cons x l r : 1 <= r -> at_ (x :: l) r = ((if x then 1 else -1) + at_ l (r - 1))%Z.
Proof. intros H. destruct r as [|r]; [lia|]. unfold at_. cbn [firstn ex]. now rewrite Nat.sub_succ, Nat.sub_0_r. Qed.
Lemma at_0 l : at_ l 0 = 0%Z.
Proof. reflexivity. Qed.
Lemma at_all l : at_ l (length l) = ex l.
Proof. unfold at_. now rewrite firstn_all. Qed.

Lemma balanced_ex m : balanced m -> ex m = 0%Z /\ forall r, r <= length m -> (0 <= at_ m r)%Z.
Proof.
  induction 1 as [|x y Hx [X1 X2] Hy [Y1 Y2]]; [split; [reflexivity|intros r Hr; destruct r; [rewrite at_0; lia|cbn in Hr; lia]]|]. split.
  - cbn [ex]. rewrite ex_app. cbn [ex]. lia.
  - intros r Hr. cbn [length] in Hr. rewrite app_length in Hr. cbn [length] in Hr. destruct (Nat.eq_dec r 0) as [->|]; [rewrite at_0; lia|]. rewrite at_cons by lia.
    destruct (Nat.le_gt_cases (r - 1) (length x)); [rewrite at_app_l by lia; specialize (X2 (r - 1) ltac:(lia)); lia|].
    rewrite at_app_r by lia. rewrite at_cons by lia. specialize (Y2 (r - 1 - length x - 1) ltac:(lia)). lia.
Qed.

(** A pair is the first return to its excess. *)
Lemma matching_at l p q : matching l p q -> p < q < length l /\ at_ l (q + 1) = at_ l p /\ (forall r, p < r <= q -> (at_ l p < at_ l r)%Z) /\ at_ l q = (at_ l p + 1)%Z /\ nth p l false = true /\ nth q l true = false.
Proof.
  intros (a & m & b & -> & Hm & <- & <-). destruct (balanced_ex m Hm) as [M1 M2].
  assert (A : forall r, length a < r <= length a + 1 + length m -> at_ (a ++ true :: m ++ false :: b) r = (ex a + 1 + at_ m (r - length a - 1))%Z).
  { intros r Hr. rewrite at_app_r, at_cons by lia. rewrite at_app_l by lia. lia. }
  assert (A0 : at_ (a ++ true :: m ++ false :: b) (length a) = ex a) by (rewrite at_app_l, at_all by lia; reflexivity).
  split; [rewrite app_length; cbn [length]; rewrite app_length; cbn [length]; lia|]. split; [|split; [|split; [|split]]].
  - rewrite A0. rewrite at_app_r, at_cons by lia. replace (length a + 1 + length m + 1 - length a - 1) with (length m + 1) by lia. rewrite at_app_r, at_cons by lia.
    replace (length m + 1 - length m - 1) with 0 by lia. rewrite at_0. lia.
  - intros r Hr. rewrite A0, A by lia. specialize (M2 (r - length a - 1) ltac:(lia)). lia.
  - rewrite A0, A by lia. replace (length a + 1 + length m - length a - 1) with (length m) by lia. rewrite at_all. lia.
  - rewrite app_nth2, Nat.sub_diag by lia. reflexivity.
  - rewrite app_nth2 by lia. replace (length a + 1 + length m - length a) with (S (length m)) by lia. cbn [nth]. rewrite app_nth2, Nat.sub_diag by lia. reflexivity.
Qed.
Lemma matching_unique l p q q' : matching l p q -> matching l p q' -> q = q'.
Proof.
  intros H H'. apply matching_at in H as (H1 & H2 & H3 & _). apply matching_at in H' as (G1 & G2 & G3 & _).
  destruct (Nat.lt_trichotomy q q') as [L|[L|L]]; [|assumption|]; exfalso; [specialize (G3 (q + 1) ltac:(lia))|specialize (H3 (q' + 1) ltac:(lia))]; lia.
Qed.
Lemma matching_unique_open l p p' q : matching l p q -> matching l p' q -> p = p'.
Proof.
  intros H H'. apply matching_at in H as (H1 & H2 & H3 & _). apply matching_at in H' as (G1 & G2 & G3 & _).
  destruct (Nat.lt_trichotomy p p') as [L|[L|L]]; [|assumption|]; exfalso; [specialize (H3 p' ltac:(lia))|specialize (G3 p ltac:(lia))]; lia.
Qed.
Lemma matching_lift u x v p q : matching x p q -> matching (u ++ x ++ v) (length u + p) (length u + q).
Proof.
  intros (a & m & b & -> & Hm & <- & <-). exists (u ++ a), m, (b ++ v). split; [repeat (rewrite <- app_assoc; cbn [app]); reflexivity|]. rewrite app_length. repeat split; [assumption|lia].
Qed.
Lemma nth_in_l (x y : list bool) d i : i < length x -> nth i (x ++ y) d = nth i x d.
Proof. apply app_nth1. Qed.

(** Parentheses of a balanced sequence have a partner, and opening ones are at the top or enclosed. *)
Lemma lift_in x y p q : matching x p q -> matching (true :: x ++ false :: y) (1 + p) (1 + q).
Proof. intros H. exact (matching_lift [true] x (false :: y) p q H). Qed.
Lemma lift_after x y p q : matching y p q -> matching (true :: x ++ false :: y) (2 + length x + p) (2 + length x + q).
Proof.
  intros H. apply (matching_lift (true :: x ++ [false]) y []) in H. rewrite app_nil_r in H. replace (true :: x ++ false :: y) with ((true :: x ++ [false]) ++ y) by (cbn [app]; now rewrite <- app_assoc).
  replace (2 + length x) with (length (true :: x ++ [false])) by (cbn [length]; rewrite app_length; cbn [length]; lia). exact H.
Qed.
Lemma outer x y : balanced x -> matching (true :: x ++ false :: y) 0 (1 + length x).
Proof. intros H. exists [], x, y. split; [reflexivity|]. split; [assumption|]. split; cbn; lia. Qed.
Lemma balanced_close m : balanced m -> forall p, nth p m false = true -> exists q, matching m p q.
Proof.
  induction 1 as [|x y Hx IHx Hy IHy]; intros p Hp; [destruct p; discriminate Hp|]. destruct p as [|p]; [exists (1 + length x); now apply outer|]. cbn [nth] in Hp.
  destruct (Nat.lt_ge_cases p (length x)).
  - rewrite app_nth1 in Hp by assumption. destruct (IHx p Hp) as (q & Hq). exists (1 + q). exact (lift_in x y _ _ Hq).
  - rewrite app_nth2 in Hp by assumption. destruct (p - length x) as [|p'] eqn:Ep; [discriminate Hp|]. cbn [nth] in Hp. destruct (IHy p' Hp) as (q & Hq). exists (2 + length x + q).
    apply (lift_after x y) in Hq. replace (S p) with (2 + length x + p') by lia. exact Hq.
Qed.
Lemma balanced_open m : balanced m -> forall q, nth q m true = false -> exists p, matching m p q.
Proof.
  induction 1 as [|x y Hx IHx Hy IHy]; intros p Hp; [destruct p; discriminate Hp|]. destruct p as [|p]; [discriminate Hp|]. cbn [nth] in Hp.
  destruct (Nat.lt_ge_cases p (length x)).
  - rewrite app_nth1 in Hp by assumption. destruct (IHx p Hp) as (q & Hq). exists (1 + q). exact (lift_in x y _ _ Hq).
  - rewrite app_nth2 in Hp by assumption. destruct (p - length x) as [|p'] eqn:Ep; [exists 0; replace (S p) with (1 + length x) by lia; now apply outer|].
    cbn [nth] in Hp. destruct (IHy p' Hp) as (q & Hq). exists (2 + length x + q). apply (lift_after x y) in Hq. replace (S p) with (2 + length x + p') by lia. exact Hq.
Qed.
Lemma inside m : balanced m -> forall k, nth k m false = true -> at_ m k = 0%Z \/ exists p q, matching m p q /\ p < k < q /\ at_ m k = (at_ m p + 1)%Z.
Proof.
  induction 1 as [|x y Hx IHx Hy IHy]; intros k Hk; [destruct k; discriminate Hk|]. destruct k as [|k]; [left; reflexivity|]. cbn [nth] in Hk.
  destruct (Nat.lt_ge_cases k (length x)).
  - right. rewrite app_nth1 in Hk by assumption. rewrite at_cons by lia. rewrite Nat.sub_succ, Nat.sub_0_r, at_app_l by lia. destruct (IHx k Hk) as [Z0|(p & q & M & B & A)].
    + exists 0, (1 + length x). split; [now apply outer|]. split; [lia|]. rewrite Z0, at_0. reflexivity.
    + exists (1 + p), (1 + q). split; [now apply lift_in|]. split; [lia|]. rewrite (at_cons _ _ (1 + p)) by lia. replace (1 + p - 1) with p by lia. rewrite at_app_l by lia. lia.
  - rewrite app_nth2 in Hk by assumption. destruct (k - length x) as [|k'] eqn:Ek; [discriminate Hk|]. cbn [nth] in Hk.
    assert (Sh : forall r, at_ (true :: x ++ false :: y) (2 + length x + r) = at_ y r).
    { intros r. rewrite at_cons by lia. rewrite at_app_r by lia. rewrite at_cons by lia. replace (2 + length x + r - 1 - length x - 1) with r by lia. pose proof (balanced_ex x Hx). lia. }
    replace (S k) with (2 + length x + k') by lia. rewrite Sh.
    destruct (IHy k' Hk) as [Z0|(p & q & M & B & A)]; [left; exact Z0|right]. exists (2 + length x + p), (2 + length x + q). split; [now apply lift_after|]. split; [lia|]. rewrite Sh. exact A.
Qed.
Lemma enclosing_at l p pos : encloses l p pos -> nth pos l false = true -> at_ l pos = (at_ l p + 1)%Z.
Proof.
  intros (q & Hm & Hpos & Hin) Hbit. destruct Hm as (a & m & b & -> & Hm & <- & <-).
  assert (Hk : nth (pos - length a - 1) m false = true).
  { rewrite app_nth2 in Hbit by lia. destruct (pos - length a) as [|k] eqn:Ek; [lia|]. cbn [nth] in Hbit. rewrite app_nth1 in Hbit by lia. now rewrite Nat.sub_succ, Nat.sub_0_r. }
  assert (A : at_ (a ++ true :: m ++ false :: b) pos = (ex a + 1 + at_ m (pos - length a - 1))%Z) by (rewrite at_app_r, at_cons by lia; rewrite at_app_l by lia; lia).
  rewrite A, at_app_l, at_all by lia. destruct (inside m Hm _ Hk) as [->|(p' & q' & M & B & _)]; [lia|]. exfalso.
  apply (matching_lift (a ++ [true]) m (false :: b)) in M. rewrite <- app_assoc in M. cbn [app] in M. apply Hin in M; rewrite app_length in *; cbn [length] in *; lia.
Qed.
Lemma enclosed_at l p q pos : matching l p q -> p < pos < q -> at_ l pos = (at_ l p + 1)%Z -> encloses l p pos.
Proof.
  intros Hm Hpos Ha. exists q. split; [assumption|]. split; [assumption|]. intros p' q' Hm' Hpos'. apply matching_at in Hm as (H1 & H2 & H3 & _). apply matching_at in Hm' as (G1 & G2 & G3 & _).
  destruct (Nat.le_gt_cases p' p); [assumption|]. specialize (H3 p' ltac:(lia)). specialize (G3 pos ltac:(lia)). lia.
Qed.
Lemma balanced_enclosed m : balanced m -> forall pos, nth pos m false = true -> (exists p, encloses m p pos) \/ forall p q, matching m p q -> p < pos < q -> False.
Proof.
  intros Hm pos Hb. destruct (inside m Hm pos Hb) as [Z0|(p & q & M & B & A)]; [right|left; exists p; now apply (enclosed_at _ _ q)].
  intros p q M B. apply matching_at in M as (H1 & H2 & H3 & _). specialize (H3 pos ltac:(lia)). pose proof (proj2 (balanced_ex m Hm) p ltac:(lia)). lia.
Qed.

(** ** The three operations *)
Lemma paren_build os b h h0 : bops_legal [] os -> bvb_ops bvb_empty os = Ok b -> bops_meaning [] os <> [] -> (Z.of_nat (length (bops_meaning [] os)) <= 2147483520)%Z ->
  exists v, bp_build (bv_build b) h h0 = Ok v /\ bp_ok v (bops_meaning [] os) /\ (Z.of_nat (64 * length (v_words (rs_bv (bp_rs v)))) <= 2147483583)%Z /\
    forall i, bitat (v_words (rs_bv (bp_rs v))) i = nth i (bops_meaning [] os) false.
Proof.
  intros L E0 Hne Hsz. destruct (bvb_ops_ok os bvb_empty [] empty_ok L) as (b' & E' & [Hr Hs Hc]). assert (b' = b) by congruence. subst b'.
  set (l := bops_meaning [] os) in *. clearbody l.
  assert (Hw : (Z.of_nat (64 * length (b_words b)) <= 2147483583)%Z).
  { rewrite (repr_len _ _ Hr). unfold words_for. pose proof (Nat.div_mod (length l + 63) 64). pose proof (Nat.mod_upper_bound (length l + 63) 64). lia. }
  destruct (bp_build_ok (b_words b) l h h0 Hr Hne ltac:(lia)) as (v & Ev & Er & Hv).
  { intros q Hq. pose proof (E_bound (bitat (b_words b)) q). unfold near. lia. }
  exists v. unfold bv_build. rewrite Hs. split; [exact Ev|]. split; [exact Hv|]. rewrite Er. cbn [v_words]. split; [exact Hw|]. apply (repr_bits _ _ Hr).
Qed.
Definition parens_ok (l : list bool) (v : bpv) : Prop :=
  forall wide p q, matching l p q ->
    ((p + 1) mod 64 <> 0 \/ (exists u, wide = Ok u) -> find_close wide v p = Ok (Some q)) /\
    (q mod 64 <> 0 \/ (exists u, wide = Ok u) -> find_open wide v q = Ok (Some p)).
Lemma parens_all v l : bp_ok v l -> (Z.of_nat (64 * length (v_words (rs_bv (bp_rs v)))) <= 2147483583)%Z -> (forall i, bitat (v_words (rs_bv (bp_rs v))) i = nth i l false) ->
  parens_ok l v /\
  forall wide p pos, encloses l p pos -> nth pos l false = true -> pos mod 64 <> 0 \/ (exists u, wide = Ok u) -> enclose wide v pos = Ok (Some p).
Proof.
  intros Hv Hw Hb. assert (A : forall r, r <= length l -> E (bitat (v_words (rs_bv (bp_rs v)))) r = at_ l r) by (intros r Hr; now apply ex_E). split.
  - intros wide p q M. apply matching_at in M as (H1 & H2 & H3 & H4 & _). split; intros Hwide.
    + apply find_close_ok with (l := l); try assumption; [lia|]. split; [lia|]. split; [rewrite !A by lia; exact H2|]. intros r Hr. rewrite !A by lia. apply H3. lia.
    + apply find_open_ok with (l := l); try assumption; [lia|]. split; [lia|]. split; [rewrite !A by lia; lia|]. intros r Hr. rewrite !A by lia. specialize (H3 r ltac:(lia)). lia.
  - intros wide p pos He Hbit Hwide. pose proof (enclosing_at l p pos He Hbit) as Ha. destruct He as (q & M & B & _). apply matching_at in M as (H1 & H2 & H3 & _).
    unfold enclose. apply find_open_ok with (l := l); try assumption; [lia|]. split; [lia|]. split; [rewrite !A by lia; lia|]. intros r Hr. rewrite !A by lia. specialize (H3 r ltac:(lia)). lia.
Qed.
