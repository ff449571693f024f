(** Correctness of the comparison functions. *)
From Verif Require Import Base S_Order P_Order M_Compare.
Local Open Scope Z_scope.

Lemma strncmp_self_nil l r : strncmp l r 0 = 0.
Proof. reflexivity. Qed.

(** Sign of a three-way comparison. *)
Definition sgn_is (z : Z) (c : comparison) : Prop :=
  match c with Eq => z = 0 | Lt => z < 0 | Gt => z > 0 end.

Fixpoint lcmp (l r : list N) : comparison :=
  match l, r with
  | [], [] => Eq
  | [], _ => Lt
  | _, [] => Gt
  | x :: l', y :: r' => match N.compare x y with Eq => lcmp l' r' | c => c end
  end.

Lemma lcmp_spec l r :
  (lcmp l r = Lt <-> lex_lt l r) /\ (lcmp l r = Eq <-> l = r) /\ (lcmp l r = Gt <-> lex_lt r l).
Proof.
  revert r; induction l as [|x l IH]; intros [|y r]; cbn.
  - repeat split; intros H; try discriminate; auto; inversion H.
  - repeat split; intros H; try discriminate; auto; try constructor; inversion H.
  - repeat split; intros H; try discriminate; auto; try constructor; inversion H.
  - destruct (IH r) as (I1 & I2 & I3).
    destruct (N.compare_spec x y) as [->|Hlt|Hlt].
    + repeat split; intros H.
      * constructor; tauto.
      * apply I1. inversion H; subst; [lia|assumption].
      * f_equal. tauto.
      * apply I2. now injection H.
      * constructor; tauto.
      * apply I3. inversion H; subst; [lia|assumption].
    + repeat split; intros H; try discriminate; auto.
      * now constructor.
      * injection H as -> ->; lia.
      * inversion H; subst; lia.
    + repeat split; intros H; try discriminate; auto.
      * inversion H; subst; lia.
      * injection H as -> ->; lia.
      * now constructor.
Qed.

(** Strings that agree up to and including a NUL. *)
Lemma same_cstr_here l r : same_cstr (0%N :: l) (0%N :: r).
Proof. exists [], l, r. repeat split. constructor. Qed.
Lemma same_cstr_cons x l r : x <> 0%N -> same_cstr l r -> same_cstr (x :: l) (x :: r).
Proof. intros Hx (p & u & v & Hp & -> & ->). exists (x :: p), u, v. repeat split. constructor; [lia|exact Hp]. Qed.
Lemma nul_free_not_same_l l r : nul_free l -> ~ same_cstr l r.
Proof.
  intros H (p & u & v & _ & -> & _). apply Forall_app in H as [_ H]. inversion H; subst. lia.
Qed.
Lemma nul_free_not_same_r l r : nul_free r -> ~ same_cstr l r.
Proof.
  intros H (p & u & v & _ & _ & ->). apply Forall_app in H as [_ H]. inversion H; subst. lia.
Qed.

Lemma brc_sgn l r : ~ same_cstr l r -> sgn_is (byte_range_compare l r) (lcmp l r).
Proof.
  unfold byte_range_compare.
  revert r; induction l as [|x l IH]; intros [|y r] Hc.
  - cbn. lia.
  - cbn [length lcmp sgn_is].
    destruct (Z.ltb_spec (Z.of_nat 0) (Z.of_nat (S (length r)))); [|lia].
    cbn [strncmp]. rewrite Z.eqb_refl. cbn [negb]. lia.
  - cbn [length lcmp sgn_is].
    destruct (Z.ltb_spec (Z.of_nat (S (length l))) (Z.of_nat 0)); [lia|].
    cbn [strncmp]. rewrite Z.eqb_refl. cbn [negb]. lia.
  - cbn [length lcmp].
    replace (if Z.of_nat (S (length l)) <? Z.of_nat (S (length r)) then S (length l) else S (length r))
      with (S (if Z.of_nat (length l) <? Z.of_nat (length r) then length l else length r)).
    2:{ destruct (Z.ltb_spec (Z.of_nat (S (length l))) (Z.of_nat (S (length r))));
        destruct (Z.ltb_spec (Z.of_nat (length l)) (Z.of_nat (length r))); lia. }
    cbn [strncmp].
    destruct (N.compare_spec x y) as [->|H|H].
    + rewrite N.ltb_irrefl. destruct (N.eqb_spec y 0) as [->|Hy].
      { exfalso. apply Hc. apply same_cstr_here. }
      specialize (IH r (fun H => Hc (same_cstr_cons y l r Hy H))).
      replace (Z.of_nat (S (length l)) - Z.of_nat (S (length r))) with (Z.of_nat (length l) - Z.of_nat (length r)) by lia.
      exact IH.
    + destruct (N.ltb_spec x y); [|lia]. cbn. lia.
    + destruct (N.ltb_spec x y); [lia|]. destruct (N.ltb_spec y x); [|lia]. cbn. lia.
Qed.

Lemma brcn_sgn l r : ~ same_cstr l r ->
  sgn_is (byte_range_compare_n l r (length r)) (pcmp l r).
Proof.
  unfold byte_range_compare_n.
  revert r; induction l as [|x l IH]; intros [|y r] Hc.
  - cbn. lia.
  - cbn [length pcmp sgn_is]. destruct (Nat.ltb_spec 0 (S (length r))); [|lia].
    cbn [strncmp]. rewrite Z.eqb_refl. cbn [negb]. lia.
  - cbn. reflexivity.
  - cbn [length pcmp].
    replace (if (S (length l) <? S (length r))%nat then S (length l) else S (length r))
      with (S (if (length l <? length r)%nat then length l else length r)).
    2:{ destruct (Nat.ltb_spec (S (length l)) (S (length r)));
        destruct (Nat.ltb_spec (length l) (length r)); lia. }
    cbn [strncmp].
    destruct (N.compare_spec x y) as [->|H|H].
    + rewrite N.ltb_irrefl. destruct (N.eqb_spec y 0) as [->|Hy].
      { exfalso. apply Hc. apply same_cstr_here. }
      specialize (IH r (fun H => Hc (same_cstr_cons y l r Hy H))).
      rewrite !Nat2Z.inj_succ.
      replace (Z.succ (Z.of_nat (if (length l <? length r)%nat then length l else length r)) - Z.succ (Z.of_nat (length r)))
        with (Z.of_nat (if (length l <? length r)%nat then length l else length r) - Z.of_nat (length r)) by lia.
      exact IH.
    + destruct (N.ltb_spec x y); [|lia]. cbn. lia.
    + destruct (N.ltb_spec x y); [lia|]. destruct (N.ltb_spec y x); [|lia]. cbn. lia.
Qed.

Lemma urc_sgn l r : sgn_is (uint32_range_compare l r) (lcmp l r).
Proof.
  revert r; induction l as [|x l IH]; intros [|y r]; cbn [uint32_range_compare lcmp].
  - cbn. lia.
  - cbn [length sgn_is]. lia.
  - cbn [length sgn_is]. lia.
  - destruct (N.compare_spec x y) as [->|H|H].
    + rewrite N.ltb_irrefl. apply IH.
    + destruct (N.ltb_spec x y); [|lia]. cbn. lia.
    + destruct (N.ltb_spec x y); [lia|]. destruct (N.ltb_spec y x); [|lia]. cbn. lia.
Qed.

Lemma urcn_sgn l r : sgn_is (uint32_range_compare_n l r (length r)) (pcmp l r).
Proof.
  revert l; induction r as [|y r IH]; intros l; cbn [length uint32_range_compare_n pcmp].
  - cbn. reflexivity.
  - destruct l as [|x l].
    + cbn. lia.
    + destruct (N.compare_spec x y) as [->|H|H].
      * rewrite N.ltb_irrefl. apply IH.
      * destruct (N.ltb_spec x y); [|lia]. cbn. lia.
      * destruct (N.ltb_spec x y); [lia|]. destruct (N.ltb_spec y x); [|lia]. cbn. lia.
Qed.

Lemma sgn_lt z c : sgn_is z c -> (z < 0 <-> c = Lt).
Proof. destruct c; cbn; split; intros; try discriminate; auto; lia. Qed.
Lemma sgn_gt z c : sgn_is z c -> (z > 0 <-> c = Gt).
Proof. destruct c; cbn; split; intros; try discriminate; auto; lia. Qed.
Lemma sgn_eq z c : sgn_is z c -> (z = 0 <-> c = Eq).
Proof. destruct c; cbn; split; intros; try discriminate; auto; lia. Qed.

Lemma byte_compare_correct l r : ~ same_cstr l r ->
  (byte_range_compare l r < 0 <-> lex_lt l r) /\
  (byte_range_compare l r = 0 <-> l = r) /\
  (byte_range_compare l r > 0 <-> lex_lt r l).
Proof.
  intros Hc. pose proof (brc_sgn l r Hc) as H.
  destruct (lcmp_spec l r) as (H1 & H2 & H3).
  rewrite (sgn_lt _ _ H), (sgn_eq _ _ H), (sgn_gt _ _ H). auto.
Qed.

Lemma uint32_compare_correct l r :
  (uint32_range_compare l r < 0 <-> lex_lt l r) /\
  (uint32_range_compare l r = 0 <-> l = r) /\
  (uint32_range_compare l r > 0 <-> lex_lt r l).
Proof.
  pose proof (urc_sgn l r) as H.
  destruct (lcmp_spec l r) as (H1 & H2 & H3).
  rewrite (sgn_lt _ _ H), (sgn_eq _ _ H), (sgn_gt _ _ H). auto.
Qed.

Lemma byte_compare_n_correct l r : ~ same_cstr l r ->
  (byte_range_compare_n l r (length r) < 0 <-> lex_lt l r) /\
  (byte_range_compare_n l r (length r) = 0 <-> is_prefix r l) /\
  (byte_range_compare_n l r (length r) > 0 <-> lex_lt r l /\ ~ is_prefix r l).
Proof.
  intros Hc. pose proof (brcn_sgn l r Hc) as H.
  rewrite (sgn_lt _ _ H), (sgn_eq _ _ H), (sgn_gt _ _ H).
  auto using pcmp_lt, pcmp_eq, pcmp_gt.
Qed.

Lemma uint32_compare_n_correct l r :
  (uint32_range_compare_n l r (length r) < 0 <-> lex_lt l r) /\
  (uint32_range_compare_n l r (length r) = 0 <-> is_prefix r l) /\
  (uint32_range_compare_n l r (length r) > 0 <-> lex_lt r l /\ ~ is_prefix r l).
Proof.
  pose proof (urcn_sgn l r) as H.
  rewrite (sgn_lt _ _ H), (sgn_eq _ _ H), (sgn_gt _ _ H).
  auto using pcmp_lt, pcmp_eq, pcmp_gt.
Qed.

(** With a NUL inside, byte_range_compare no longer decides equality (F14). *)
Lemma byte_compare_nul_wrong : exists l r, l <> r /\ byte_range_compare l r = 0.
Proof. exists [1;0;2]%N, [1;0;3]%N. split; [discriminate|reflexivity]. Qed.

(** Strings that agree up to and including a NUL are ordered by their lengths. *)
Lemma strncmp_same p u v n : nul_free p -> strncmp (p ++ 0%N :: u) (p ++ 0%N :: v) n = 0.
Proof.
  intros Hp. revert n. induction Hp as [|x p Hx Hp IH]; intros [|n]; cbn [app strncmp]; auto.
  rewrite N.ltb_irrefl. destruct (N.eqb_spec x 0); [lia|]. apply IH.
Qed.
Lemma byte_compare_same l r : same_cstr l r -> byte_range_compare l r = Z.of_nat (length l) - Z.of_nat (length r).
Proof.
  intros (p & u & v & Hp & -> & ->). unfold byte_range_compare. rewrite strncmp_same by exact Hp. reflexivity.
Qed.
Lemma byte_compare_n_same l r : same_cstr l r ->
  byte_range_compare_n l r (length r) = Z.of_nat (Nat.min (length l) (length r)) - Z.of_nat (length r).
Proof.
  intros (p & u & v & Hp & -> & ->). unfold byte_range_compare_n. rewrite strncmp_same by exact Hp. cbn [negb Z.eqb].
  destruct (Nat.ltb_spec (length (p ++ 0%N :: u)) (length (p ++ 0%N :: v))); lia.
Qed.
