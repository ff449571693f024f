(** cartesian_tree: rmq returns the leftmost minimum (C20). *)
From Coq Require Import ZArith Sorted.
From Verif Require Import Base S_Bits S_TopK M_Word M_Bits P_BitsRead M_Darray M_Rs M_Bp M_Cart P_Word P_Bits P_Rank P_Rs P_Scan P_BpWord P_BpTree P_BpBuild P_Bp P_TopK P_TopKDistinct P_ListIter.
Local Open Scope nat_scope.

(** The stack after some elements. *)
Fixpoint drop (v : nat) (st : list nat) : list nat := match st with [] => [] | x :: r => if v <? x then drop v r else st end.
Definition step (st : list nat) (v : nat) : list nat := v :: drop v st.
Definition stack (l : list nat) : list nat := fold_left step l [].
Lemma step_eq st v : step st v = v :: drop v st.
Proof. reflexivity. Qed.
Lemma stack_snoc l v : stack (l ++ [v]) = step (stack l) v.
Proof. unfold stack. rewrite fold_left_app. reflexivity. Qed.

(** From the top down the stack decreases. *)
Definition down (st : list nat) : Prop := StronglySorted (fun x y => y <= x) st.
Lemma drop_filter v st : down st -> drop v st = filter (fun y => y <=? v) st.
Proof.
  induction st as [|x st IH]; intros H; [reflexivity|]. apply StronglySorted_inv in H as [H1 H2]. cbn [drop filter].
  destruct (Nat.ltb_spec v x), (Nat.leb_spec x v); try lia; [now apply IH|]. f_equal. symmetry.
  clear IH H1. induction H2 as [|y st Hy _ IH2]; [reflexivity|]. cbn [filter]. destruct (Nat.leb_spec y v); [now f_equal|lia].
Qed.
Lemma down_filter g st : down st -> down (filter g st).
Proof.
  induction st as [|x st IH]; intros H; [constructor|]. apply StronglySorted_inv in H as [H1 H2]. cbn [filter]. destruct (g x); [|now apply IH].
  constructor; [now apply IH|]. rewrite Forall_forall in *. intros y Hy. apply filter_In in Hy as [Hy _]. now apply H2.
Qed.
Lemma down_step st v : down st -> down (step st v).
Proof.
  intros H. unfold step. rewrite drop_filter by assumption. constructor; [now apply down_filter|]. apply Forall_forall. intros y Hy. apply filter_In in Hy as [_ Hy]. now apply Nat.leb_le.
Qed.
Lemma down_stack l : down (stack l).
Proof. induction l as [|v l IH] using rev_ind; [constructor|]. rewrite stack_snoc. now apply down_step. Qed.

(** Elements that are not smaller stay on top. *)
Lemma stay ys v st m : (forall x, In x m -> v <= x) -> exists ys', fold_left step m (ys ++ v :: st) = ys' ++ v :: st /\ (m <> [] \/ ys <> [] -> ys' <> []).
Proof.
  revert ys. induction m as [|x m IH]; intros ys H; [exists ys; split; [reflexivity|intros [|]; congruence]|]. cbn [fold_left].
  assert (Hd : exists ys', step (ys ++ v :: st) x = ys' ++ v :: st /\ ys' <> []).
  { unfold step. assert (Hx : v <= x) by (apply H; now left). clear IH. induction ys as [|y ys IHy]; cbn [app drop].
    - destruct (Nat.ltb_spec x v); [lia|]. exists [x]. split; [reflexivity|discriminate].
    - destruct (Nat.ltb_spec x y); [apply IHy|]. exists (x :: y :: ys). split; [reflexivity|discriminate]. }
  destruct Hd as (ys1 & -> & H1). destruct (IH ys1) as (ys' & -> & H2); [intros z Hz; apply H; now right|]. exists ys'. split; [reflexivity|]. intros _. apply H2. now right.
Qed.
(** Larger elements do not touch those at most v. *)
Lemma filter_filter_le v x st : v < x -> filter (fun y => y <=? v) (filter (fun y => y <=? x) st) = filter (fun y => y <=? v) st.
Proof.
  intros H. induction st as [|y st IH]; [reflexivity|]. cbn [filter]. destruct (Nat.leb_spec y x), (Nat.leb_spec y v); cbn [filter]; try lia; rewrite ?IH; try reflexivity.
  - destruct (Nat.leb_spec y v); [reflexivity|lia].
  - destruct (Nat.leb_spec y v); [lia|reflexivity].
Qed.
Lemma untouched v m st : down st -> (forall x, In x m -> v < x) -> filter (fun y => y <=? v) (fold_left step m st) = filter (fun y => y <=? v) st /\ down (fold_left step m st).
Proof.
  revert st. induction m as [|x m IH]; intros st Hd H; [now split|]. cbn [fold_left]. destruct (IH (step st x)) as [E1 H1]; [now apply down_step|intros; apply H; now right|].
  split; [|assumption]. rewrite E1. unfold step. specialize (H x (or_introl eq_refl)). cbn [filter]. destruct (Nat.leb_spec x v); [lia|]. rewrite drop_filter by assumption. now apply filter_filter_le.
Qed.

Lemma firstn_split {A} (l : list A) i j d : i < j -> j <= length l -> exists m, firstn j l = firstn i l ++ nth i l d :: m /\ (forall x, In x m -> exists q, i < q < j /\ nth q l d = x) /\ length m = j - i - 1.
Proof.
  intros H1 H2. exists (firstn (j - i - 1) (skipn (S i) l)).
  assert (Es : skipn i l = nth i l d :: skipn (S i) l). { assert (Hi : i < length l) by lia. clear H1 H2. revert i Hi. induction l as [|x l IH]; intros [|i] Hi; cbn in Hi; try lia; [reflexivity|]. cbn [skipn nth]. apply IH. lia. }
  split; [|split].
  - rewrite <- (firstn_skipn i (firstn j l)) at 1. rewrite firstn_firstn, Nat.min_l by lia. f_equal. rewrite skipn_firstn_comm, Es. destruct (j - i) as [|c] eqn:Ec; [lia|]. replace (S c - 1) with c by lia. reflexivity.
  - intros x Hx. apply (In_nth _ _ d) in Hx as (n & Hn & <-). rewrite firstn_length, skipn_length in Hn. exists (S i + n). split; [lia|].
    rewrite nth_firstn by lia. symmetry. apply nth_skipn.
  - rewrite firstn_length, skipn_length. lia.
Qed.

Section Sizes.
  Variable l : list nat.
  Definition S_ (k : nat) : nat := length (stack (firstn k l)).
  (** After the leftmost minimum p of [a, b]: stack sizes of later elements are larger, of earlier ones not smaller. *)
  Lemma sizes_after p b : p < b -> b < length l -> (forall i, p < i <= b -> nth p l 0 <= nth i l 0) -> S_ (p + 1) < S_ (b + 1).
  Proof.
    intros H1 H2 H. unfold S_. destruct (firstn_split l p (p + 1) 0) as (m0 & E0 & _ & L0); [lia..|]. destruct m0; [|cbn in L0; lia].
    destruct (firstn_split l p (b + 1) 0) as (m & E1 & Hm & Lm); [lia..|]. rewrite E0, E1.
    change (nth p l 0 :: m) with ([nth p l 0] ++ m). rewrite app_assoc. unfold stack at 2. rewrite fold_left_app. fold (stack (firstn p l ++ [nth p l 0])). rewrite stack_snoc. unfold step at 1.
    destruct (stay [] (nth p l 0) (drop (nth p l 0) (stack (firstn p l))) m) as (ys & E2 & H3).
    - intros x Hx. destruct (Hm x Hx) as (q & Hq & <-). apply H. lia.
    - cbn [app] in E2. unfold step at 2. rewrite E2. rewrite app_length. destruct ys; [|cbn; lia]. exfalso. apply H3; [left; intros ->; cbn in Lm; lia|reflexivity].
  Qed.
  Lemma sizes_before i p : i < p -> p < length l -> (forall q, i <= q < p -> nth p l 0 < nth q l 0) -> S_ (p + 1) <= S_ (i + 1).
  Proof.
    intros H1 H2 H. unfold S_. destruct (firstn_split l i (i + 1) 0) as (m0 & E0 & _ & L0); [lia..|]. destruct m0; [|cbn in L0; lia].
    destruct (firstn_split l p (p + 1) 0) as (m1 & E1 & _ & L1); [lia..|]. destruct m1; [|cbn in L1; lia].
    destruct (firstn_split l i p 0) as (m & E2 & Hm & Lm); [lia..|]. rewrite E0, E1, E2.
    set (v := nth p l 0) in *. rewrite stack_snoc. change (nth i l 0 :: m) with ([nth i l 0] ++ m). rewrite app_assoc. set (st := stack (firstn i l ++ [nth i l 0])).
    assert (Hst : stack ((firstn i l ++ [nth i l 0]) ++ m) = fold_left step m st) by (unfold stack; rewrite fold_left_app; reflexivity). rewrite Hst.
    destruct (untouched v m st) as [F1 F2]; [apply down_stack|intros x Hx; destruct (Hm x Hx) as (q & Hq & <-); apply H; lia|].
    rewrite step_eq, drop_filter by assumption. rewrite F1. unfold st. rewrite stack_snoc, step_eq. cbn [filter length].
    specialize (H i ltac:(lia)). destruct (Nat.leb_spec (nth i l 0) v); [lia|]. set (z := drop _ _). clearbody z. clear. induction z as [|x z IH]; [cbn; lia|]. cbn [filter length]. destruct (x <=? v); cbn [length]; lia.
  Qed.
  (** The largest index minimising the stack size in [a, b] is the leftmost minimum. *)
  Lemma sizes_rmq a b i : a <= i <= b -> b < length l -> (forall q, a <= q <= b -> S_ (i + 1) <= S_ (q + 1)) -> (forall q, i < q <= b -> S_ (i + 1) < S_ (q + 1)) -> is_rmq l a b i.
  Proof.
    intros Hi Hb H1 H2. destruct (scan_rmq_spec l a b) as (p & _ & Hp1 & Hp2 & Hp3); [lia|lia|]. replace i with p; [split; [assumption|]; split; assumption|].
    destruct (Nat.lt_trichotomy p i) as [Hlt|[Heq|Hlt]]; [|assumption|].
    - exfalso. pose proof (sizes_after p i Hlt ltac:(lia) ltac:(intros; apply Hp2; lia)). specialize (H1 p ltac:(lia)). lia.
    - exfalso. pose proof (sizes_before i p Hlt ltac:(lia) ltac:(intros; apply Hp3; lia)). specialize (H2 p ltac:(lia)). lia.
  Qed.
End Sizes.

(** The bits. *)
Definition pops (l : list nat) (k : nat) : nat := S_ l k + 1 - S_ l (k + 1).
Lemma drop_length v st : length (drop v st) <= length st.
Proof. induction st as [|x st IH]; [cbn; lia|]. cbn [drop]. destruct (v <? x); cbn [length]; lia. Qed.
Fixpoint R_ (l : list nat) (k : nat) : list bool := match k with 0 => [] | S k' => repeat true (pops l k') ++ false :: R_ l k' end.
Definition R (l : list nat) : list bool := repeat true (S_ l (length l) + 1) ++ false :: R_ l (length l).
Lemma S_step l k : k < length l -> stack (firstn (k + 1) l) = step (stack (firstn k l)) (nth k l 0).
Proof. intros H. destruct (firstn_split l k (k + 1) 0) as (m & -> & _ & Hm); [lia..|]. destruct m; [|cbn in Hm; lia]. apply stack_snoc. Qed.
Lemma S_pops l k : k < length l -> S_ l (k + 1) + pops l k = S_ l k + 1.
Proof. intros H. unfold pops. assert (S_ l (k + 1) <= S_ l k + 1); [|lia]. unfold S_. rewrite S_step by assumption. unfold step. cbn [length]. pose proof (drop_length (nth k l 0) (stack (firstn k l))). lia. Qed.
Lemma S_0 l : S_ l 0 = 0.
Proof. reflexivity. Qed.
Lemma R_length l k : k <= length l -> length (R_ l k) + S_ l k = 2 * k.
Proof.
  induction k as [|k IH]; intros H; [reflexivity|]. cbn [R_]. rewrite app_length, repeat_length. cbn [length]. specialize (IH ltac:(lia)). pose proof (S_pops l k ltac:(lia)). replace (S k) with (k + 1) by lia. lia.
Qed.
Lemma R_size l : length (R l) = 2 * length l + 2.
Proof. unfold R. rewrite app_length, repeat_length. cbn [length]. pose proof (R_length l (length l) (le_n _)). lia. Qed.
Lemma count_ones n : count_occ Bool.bool_dec (repeat true n) false = 0.
Proof. induction n as [|n IH]; [reflexivity|]. cbn. exact IH. Qed.
Lemma R_split l j : j <= length l -> exists A, R l = A ++ false :: R_ l (length l - j) /\ count_occ Bool.bool_dec A false = j /\ length A = 2 * j + 1 + S_ l (length l - j).
Proof.
  induction j as [|j IH]; intros H.
  - exists (repeat true (S_ l (length l) + 1)). rewrite Nat.sub_0_r. split; [reflexivity|]. split; [apply count_ones|]. rewrite repeat_length. lia.
  - destruct IH as (A & E & H1 & H2); [lia|]. set (k := length l - S j) in *. replace (length l - j) with (S k) in * by lia. cbn [R_] in E.
    exists (A ++ false :: repeat true (pops l k)). split; [rewrite E, <- app_assoc; reflexivity|]. split.
    + rewrite count_occ_app. cbn [count_occ]. destruct (Bool.bool_dec false false); [|congruence]. rewrite count_ones. lia.
    + rewrite app_length. cbn [length]. rewrite repeat_length. pose proof (S_pops l k ltac:(lia)). replace (k + 1) with (S k) in * by lia. lia.
Qed.
Definition z_ (l : list nat) (j : nat) : nat := 2 * j + 1 + S_ l (length l - j).
Lemma R_select l j : j <= length l -> is_select false (R l) j (z_ l j).
Proof.
  intros H. destruct (R_split l j H) as (A & E & H1 & H2). unfold z_. rewrite <- H2. split.
  - rewrite E, nth_error_app2, Nat.sub_diag by lia. reflexivity.
  - unfold rank. rewrite E, firstn_app, Nat.sub_diag, firstn_all. cbn [firstn]. now rewrite app_nil_r.
Qed.
Lemma R_zeros l : count_occ Bool.bool_dec (R l) false = length l + 1.
Proof. destruct (R_split l (length l) (le_n _)) as (A & E & H1 & _). rewrite E, count_occ_app, H1, Nat.sub_diag. cbn. lia. Qed.

(** The builder makes these bits. *)
Lemma bvb_snoc b m v : bvb_ok b m -> exists b', bvb_push b v = Ok b' /\ bvb_ok b' (m ++ [v]).
Proof. apply push_ok. Qed.
Lemma ct_pop_ok v st : forall b m, bvb_ok b m -> exists b', ct_pop v st b = Ok (drop v st, b') /\ bvb_ok b' (m ++ repeat true (length st - length (drop v st))).
Proof.
  induction st as [|x st IH]; intros b m Hb.
  - exists b. cbn. rewrite app_nil_r. now split.
  - cbn [ct_pop drop]. destruct (Nat.ltb_spec v x).
    + destruct (push_ok b m true Hb) as (b1 & -> & Hb1). cbn [bind]. destruct (IH b1 _ Hb1) as (b2 & -> & Hb2). exists b2. split; [reflexivity|].
      rewrite <- app_assoc in Hb2. pose proof (drop_length v st). cbn [length]. replace (S (length st) - length (drop v st)) with (S (length st - length (drop v st))) by lia. exact Hb2.
    + exists b. split; [reflexivity|]. rewrite Nat.sub_diag. cbn. now rewrite app_nil_r.
Qed.
Lemma push_ones_ok n : forall b m, bvb_ok b m -> exists b', push_ones n b = Ok b' /\ bvb_ok b' (m ++ repeat true n).
Proof.
  induction n as [|n IH]; intros b m Hb; [exists b; cbn; rewrite app_nil_r; now split|]. cbn [push_ones]. destruct (push_ok b m true Hb) as (b1 & -> & Hb1). cbn [bind].
  destruct (IH b1 _ Hb1) as (b2 & -> & Hb2). exists b2. split; [reflexivity|]. rewrite <- app_assoc in Hb2. exact Hb2.
Qed.
Lemma repeat_snoc {A} (x : A) n : repeat x n ++ [x] = x :: repeat x n.
Proof. induction n as [|n IH]; [reflexivity|]. cbn. now rewrite IH. Qed.
Lemma rev_repeat {A} (x : A) n : rev (repeat x n) = repeat x n.
Proof. induction n as [|n IH]; [reflexivity|]. cbn. rewrite IH. apply repeat_snoc. Qed.
Lemma ct_pushes_ok l rest : forall k b, l = firstn k l ++ rest -> k + length rest = length l -> bvb_ok b (rev (R_ l k)) ->
  exists b', ct_pushes rest (stack (firstn k l), b) = Ok (stack l, b') /\ bvb_ok b' (rev (R_ l (length l))).
Proof.
  induction rest as [|x rest IH]; intros k b E H Hb.
  - exists b. cbn in H. replace k with (length l) in * by lia. rewrite firstn_all. now split.
  - cbn [length] in H. cbn [ct_pushes ct_push]. destruct (push_ok b _ false Hb) as (b1 & -> & Hb1). cbn [bind].
    destruct (ct_pop_ok x (stack (firstn k l)) b1 _ Hb1) as (b2 & -> & Hb2). cbn [bind].
    assert (Hx : nth k l 0 = x). { rewrite E, app_nth2; rewrite firstn_length_le by lia; [|lia]. now rewrite Nat.sub_diag. }
    pose proof (S_step l k ltac:(lia)) as Hs. rewrite Hx in Hs. change (x :: drop x (stack (firstn k l))) with (step (stack (firstn k l)) x). rewrite <- Hs.
    apply IH.
    + rewrite E at 1. destruct (firstn_split l k (k + 1) 0) as (m & E1 & _ & Lm); [lia..|]. destruct m; [|cbn in Lm; lia]. rewrite E1, <- app_assoc, Hx. reflexivity.
    + lia.
    + replace (k + 1) with (S k) by lia. cbn [R_]. rewrite rev_app_distr. cbn [rev]. rewrite rev_repeat. replace (pops l k) with (length (stack (firstn k l)) - length (drop x (stack (firstn k l)))); [exact Hb2|].
      unfold pops, S_. rewrite Hs. unfold step. cbn [length]. lia.
Qed.
Lemma ct_bits_ok l : exists st b, ct_pushes l ([], bvb_empty) = Ok st /\ ct_finalize st = Ok b /\ bvb_ok b (R l).
Proof.
  destruct (ct_pushes_ok l l 0 bvb_empty eq_refl eq_refl empty_ok) as (b & E & Hb). change (stack (firstn 0 l)) with (@nil nat) in E. exists (stack l, b). cbn [ct_finalize].
  destruct (push_ok b _ false Hb) as (b1 & -> & Hb1). cbn [bind]. destruct (push_ones_ok (length (stack l)) b1 _ Hb1) as (b2 & -> & Hb2). cbn [bind].
  destruct (push_ok b2 _ true Hb2) as (b3 & -> & Hb3). cbn [bind]. destruct (reverse_ok b3 _ Hb3) as (b4 & -> & Hb4). exists b4. split; [exact E|]. split; [reflexivity|].
  rewrite !rev_app_distr, rev_involutive in Hb4. cbn [rev app] in Hb4. rewrite rev_repeat in Hb4. unfold R, S_. rewrite firstn_all. replace (length (stack l) + 1) with (S (length (stack l))) by lia. exact Hb4.
Qed.

Lemma E_zeros (l : list bool) f q : (forall i, f i = nth i l false) -> q <= length l -> E f q = (Z.of_nat q - 2 * Z.of_nat (rank false l q))%Z.
Proof.
  intros Hf Hq. unfold E. pose proof (rank_sum l q Hq) as Hs. rewrite rank_true in Hs. rewrite (cnt_ext f (fun j => nth j l false)) by (intros; apply Hf). lia.
Qed.
Lemma rank_mono b l i j : i <= j -> rank b l i <= rank b l j.
Proof. intros H. destruct b; [rewrite !rank_true|rewrite !rank_false]; now apply cnt_mono. Qed.
Lemma rank_le_count b l i : rank b l i <= count_occ Bool.bool_dec l b.
Proof. unfold rank. rewrite <- (firstn_skipn i l) at 2. rewrite count_occ_app. lia. Qed.

Definition ct_ok (p : bpv) (l : list nat) : Prop := bp_ok p (R l).
Lemma ct_build_ok l : (2 * Z.of_nat (length l) + 2 <= 2147483647)%Z -> exists p, ct_build l = Ok p /\ ct_ok p l.
Proof.
  intros Hn. unfold ct_build. destruct (ct_bits_ok l) as (st & b & -> & E1 & Hb). cbn [bind]. rewrite E1. cbn [bind]. rewrite (bo_size _ _ Hb).
  destruct (bp_build_ok (b_words b) (R l) false true) as (p & -> & _ & Hp).
  - apply (bo_repr _ _ Hb).
  - unfold R. now destruct (S_ l (length l) + 1).
  - rewrite R_size. lia.
  - intros q Hq. pose proof (bo_repr _ _ Hb) as Hr. pose proof (words_for_bound (length (R l))) as Hw. rewrite <- (repr_len _ _ Hr) in Hw. rewrite R_size in Hw.
    assert (Hz : rank false (R l) (length (R l)) = length l + 1) by (rewrite rank_count; apply R_zeros).
    assert (Hones : cnt (bitat (b_words b)) q <= length l + 1).
    { rewrite (cnt_ext _ (fun j => nth j (R l) false)) by (intros; apply (repr_bits _ _ Hr)). rewrite <- rank_true.
      assert (rank true (R l) q <= rank true (R l) (length (R l))). { rewrite rank_count. apply rank_le_count. } pose proof (rank_sum (R l) (length (R l)) (le_n _)). rewrite R_size in *. lia. }
    destruct (Nat.le_gt_cases q (length (R l))) as [Hq'|Hq'].
    + rewrite (E_zeros (R l) _ q) by (try assumption; apply (repr_bits _ _ Hr)). pose proof (rank_mono false (R l) q (length (R l)) Hq'). pose proof (rank_sum (R l) q Hq') as Hs.
      assert (rank true (R l) q <= length l + 1). { rewrite (cnt_ext _ (fun j => nth j (R l) false)) in Hones by (intros; apply (repr_bits _ _ Hr)). rewrite rank_true. exact Hones. }
      unfold near. lia.
    + unfold near, E. assert (Hge : length l + 1 <= cnt (bitat (b_words b)) q).
      { rewrite (cnt_ext _ (fun j => nth j (R l) false)) by (intros; apply (repr_bits _ _ Hr)). rewrite <- rank_true. pose proof (rank_mono true (R l) (length (R l)) q ltac:(lia)). pose proof (rank_sum (R l) (length (R l)) (le_n _)). rewrite R_size in *. lia. }
      rewrite R_size in *. lia.
  - exists p. split; [reflexivity|exact Hp].
Qed.

Lemma ct_rmq_ok p l : ct_ok p l -> rmq_ok l (ct_rmq p).
Proof.
  intros Hp a b Hab Hb. unfold ct_rmq. destruct (Nat.eqb_spec a b) as [->|Hne].
  { exists b. split; [reflexivity|]. split; [lia|]. split; [|intros; lia]. intros i Hi. replace i with b by lia. lia. }
  pose proof (bo_rs _ _ Hp) as Hrs. assert (Hsz : ct_size p = length l).
  { unfold ct_size. rewrite (ro_size _ _ Hrs), R_size. replace (2 * length l + 2) with ((length l + 1) * 2) by lia. rewrite Nat.div_mul by lia. lia. }
  cbv zeta. rewrite Hsz. set (n := length l) in *. destruct (Nat.leb_spec n b); [lia|]. destruct (Nat.ltb_spec n a); [lia|]. cbn [orb].
  assert (Hsel : forall j, j <= n -> rs_select true (bp_rs p) j = Ok (z_ l j)). { intros j Hj. apply (rs_select_list true _ (R l)); [assumption|]. now apply R_select. }
  rewrite !Hsel by lia. cbn [bind]. set (f := bitat (v_words (rs_bv (bp_rs p)))).
  assert (Hf : forall i, f i = nth i (R l) false) by (intros i; apply (repr_bits _ _ (ro_repr _ _ Hrs))).
  pose proof (bo_small _ _ Hp) as Hsmall. rewrite R_size in Hsmall. fold n in Hsmall.
  assert (Hzl : forall j, j <= n -> z_ l j < length (R l)). { intros j Hj. destruct (R_select l j Hj) as [H1 _]. apply nth_error_Some. congruence. }
  assert (HzE : forall j, j <= n -> rank false (R l) (z_ l j) = j) by (intros j Hj; apply (R_select l j Hj)).
  assert (HzS : forall j, j <= n -> rank false (R l) (z_ l j + 1) = j + 1).
  { intros j Hj. destruct (R_select l j Hj) as [H1 H2]. rewrite rank_false in *. replace (z_ l j + 1) with (S (z_ l j)) by lia. rewrite cnt_S, H2. rewrite (nth_error_nth _ _ true H1). reflexivity. }
  assert (HE1 : forall j, j <= n -> E f (z_ l j + 1) = Z.of_nat (S_ l (n - j))).
  { intros j Hj. rewrite (E_zeros (R l)) by (try assumption; specialize (Hzl j Hj); lia). rewrite HzS by assumption. unfold z_. fold n. lia. }
  assert (Hz_lt : forall i j, i < j -> j <= n -> z_ l i < z_ l j).
  { intros i j Hij Hj. destruct (Nat.lt_ge_cases (z_ l i) (z_ l j)) as [|Hge]; [assumption|]. pose proof (rank_mono false (R l) _ _ Hge). rewrite !HzE in * by lia. lia. }
  set (x := z_ l (n - b)). set (y := z_ l (n - a)).
  assert (Hxy : x < y) by (apply Hz_lt; lia). pose proof (Hzl (n - a) ltac:(lia)) as Hy. fold y in Hy.
  destruct (excess_rmq_ok p (R l) Hp x y ltac:(lia)) as (w & -> & Hw & Hmin & Hleft). fold f in Hmin, Hleft. fold f. cbn [bind].
  assert (HS : forall k, a + 1 <= k <= b -> x <= z_ l (n - k) + 1 <= y /\ E f (z_ l (n - k) + 1) = Z.of_nat (S_ l k)).
  { intros k Hk. split.
    - assert (x <= z_ l (n - k)). { unfold x. destruct (Nat.eq_dec k b) as [->|]; [lia|]. specialize (Hz_lt (n - b) (n - k)). lia. }
      assert (z_ l (n - k) < y) by (apply Hz_lt; lia). lia.
    - rewrite HE1 by lia. do 2 f_equal. lia. }
  (* w follows a zero *)
  assert (Hk : exists k, a + 1 <= k <= b /\ w = z_ l (n - k) + 1).
  { assert (Hwx : x < w).
    { destruct (Nat.eq_dec w x) as [->|]; [|lia]. exfalso. destruct (HS b ltac:(lia)) as [H1 H2]. fold x in H2. specialize (Hmin (x + 1) ltac:(lia)). rewrite H2 in Hmin.
      rewrite (E_zeros (R l)) in Hmin by (try assumption; lia). unfold x in Hmin. rewrite HzE in Hmin by lia. unfold z_ in Hmin. fold n in Hmin. replace (n - (n - b)) with b in Hmin by lia. lia. }
    set (j := rank false (R l) w - 1). pose proof (rank_mono false (R l) (x + 1) w ltac:(lia)) as R1. pose proof (rank_mono false (R l) w y ltac:(lia)) as R2.
    unfold x in R1. rewrite HzS in R1 by lia. unfold y in R2. rewrite HzE in R2 by lia. assert (Hj : n - b <= j <= n - a - 1) by lia.
    exists (n - j). split; [lia|]. replace (n - (n - j)) with j by lia.
    assert (Hlt : z_ l j < w). { destruct (Nat.lt_ge_cases (z_ l j) w) as [|Hge]; [assumption|]. pose proof (rank_mono false (R l) _ _ Hge) as R3. rewrite HzE in R3 by lia. lia. }
    destruct (Nat.eq_dec w (z_ l j + 1)) as [|Hwne]; [assumption|exfalso]. destruct (HS (n - j) ltac:(lia)) as [H1 H2]. replace (n - (n - j)) with j in * by lia.
    specialize (Hmin (z_ l j + 1) H1). rewrite (E_zeros (R l) f w), (E_zeros (R l) f (z_ l j + 1)) in Hmin by (try assumption; lia). rewrite HzS in Hmin by lia. lia. }
  destruct Hk as (k & Hk & Ew). destruct (HS k Hk) as [Hk1 Hk2]. rewrite <- Ew in Hk2.
  assert (HSall : forall k', a + 1 <= k' <= b -> S_ l k <= S_ l k'). { intros k' Hk'. destruct (HS k' Hk') as [H1 H2]. specialize (Hmin _ H1). lia. }
  assert (HSlt : forall k', k < k' <= b -> S_ l k < S_ l k').
  { intros k' Hk'. destruct (HS k' ltac:(lia)) as [H1 H2]. specialize (Hleft (z_ l (n - k') + 1)). assert (z_ l (n - k') < z_ l (n - k)) by (apply Hz_lt; lia). lia. }
  assert (HSb : S_ l (b + 1) <= 2 * n). { pose proof (R_length l (b + 1) ltac:(unfold n in *; lia)). lia. }
  assert (Et : (Z.of_nat (z_ l (n - b - 1)) - 2 * Z.of_nat (n - b - 1) = Z.of_nat (S_ l (b + 1)) + 1)%Z).
  { unfold z_. fold n. replace (n - (n - b - 1)) with (b + 1) by lia. lia. }
  rewrite Et, to_i32_id, i32_ok by lia. cbn [bind]. rewrite Hk2.
  assert (Ez : Z.to_nat ((Z.of_nat w - Z.of_nat (S_ l k)) mod 18446744073709551616 / 2) = n - k + 1).
  { assert (Ewz : (Z.of_nat w - Z.of_nat (S_ l k) = Z.of_nat (n - k + 1) * 2)%Z). { rewrite Ew. unfold z_. fold n. replace (n - (n - k)) with k by lia. lia. }
    rewrite Ewz, Z.mod_small by lia. rewrite Z.div_mul by lia. lia. }
  rewrite Ez. destruct (Z.leb_spec (Z.of_nat (S_ l (b + 1)) + 1 - 1) (Z.of_nat (S_ l k))) as [Hle|Hlt].
  - exists b. split; [reflexivity|]. apply sizes_rmq; [lia|assumption| |intros; lia]. intros q Hq. destruct (Nat.eq_dec q b) as [->|]; [lia|]. specialize (HSall (q + 1) ltac:(lia)). lia.
  - destruct (Nat.ltb_spec n (n - k + 1)); [lia|]. exists (n - (n - k + 1)). split; [reflexivity|]. replace (n - (n - k + 1)) with (k - 1) by lia.
    apply sizes_rmq; [lia|assumption| |]; replace (k - 1 + 1) with k by lia; intros q Hq.
    + destruct (Nat.eq_dec q b) as [->|]; [lia|]. apply HSall. lia.
    + destruct (Nat.eq_dec q b) as [->|]; [lia|]. apply HSlt. lia.
Qed.

Theorem cartesian_rmq l : (2 * N.of_nat (length l) + 2 < 2147483648)%N -> exists p, ct_build l = Ok p /\ rmq_ok l (ct_rmq p).
Proof. intros H. destruct (ct_build_ok l) as (p & E1 & Hp); [lia|]. exists p. split; [assumption|]. now apply ct_rmq_ok. Qed.
