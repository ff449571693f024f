(** Facts about the lexicographic order. *)
From Verif Require Import Base S_Order.

Lemma lex_irrefl a : ~ lex_lt a a.
Proof.
  induction a as [|x a IH]; intros H; inversion H; subst; [lia|auto].
Qed.

Lemma lex_trans a b c : lex_lt a b -> lex_lt b c -> lex_lt a c.
Proof.
  intros H; revert c; induction H as [y ys|x y xs ys Hxy|x xs ys H IH]; intros c Hc;
    inversion Hc; subst; try (constructor; auto; lia).
Qed.

Lemma lex_total a b : lex_lt a b \/ a = b \/ lex_lt b a.
Proof.
  revert b; induction a as [|x a IH]; intros [|y b].
  - auto.
  - left; constructor.
  - right; right; constructor.
  - destruct (N.lt_trichotomy x y) as [H|[->|H]].
    + left; now constructor.
    + destruct (IH b) as [H|[->|H]]; [left|right; left|right; right]; auto; now constructor.
    + right; right; now constructor.
Qed.

Lemma lex_asym a b : lex_lt a b -> ~ lex_lt b a.
Proof. intros H1 H2. exact (lex_irrefl _ (lex_trans _ _ _ H1 H2)). Qed.

Lemma lex_app_r a b c : lex_lt b c -> lex_lt (a ++ b) (a ++ c).
Proof. induction a; cbn; auto. intros; apply lex_tail; auto. Qed.

Lemma lex_app_ext a x t : lex_lt a (a ++ x :: t).
Proof. induction a; cbn; [constructor|apply lex_tail; auto]. Qed.

Lemma prefix_refl s : is_prefix s s.
Proof. exists []. now rewrite app_nil_r. Qed.

Lemma prefix_nil s : is_prefix [] s.
Proof. now exists s. Qed.

Lemma prefix_cons x p y s : is_prefix (x :: p) (y :: s) <-> x = y /\ is_prefix p s.
Proof.
  split.
  - intros [t Ht]; cbn in Ht. injection Ht as -> ->. split; [reflexivity|now exists t].
  - intros [-> [t ->]]. now exists t.
Qed.

Lemma prefix_length p s : is_prefix p s -> length p <= length s.
Proof. intros [t ->]. rewrite app_length. lia. Qed.

Lemma prefix_lex p s : is_prefix p s -> p = s \/ lex_lt p s.
Proof.
  intros [[|x t] ->]; [left; now rewrite app_nil_r|right; apply lex_app_ext].
Qed.

Lemma prefix_dec p s : {is_prefix p s} + {~ is_prefix p s}.
Proof.
  revert s; induction p as [|x p IH]; intros s.
  - left; apply prefix_nil.
  - destruct s as [|y s].
    + right. intros [t Ht]. discriminate.
    + destruct (N.eq_dec x y) as [->|Hne].
      * destruct (IH s) as [H|H]; [left; apply prefix_cons; auto|right].
        intros Hc. apply prefix_cons in Hc. tauto.
      * right. intros Hc. apply prefix_cons in Hc. tauto.
Qed.

Lemma prefix_trans a b c : is_prefix a b -> is_prefix b c -> is_prefix a c.
Proof. intros [t ->] [u ->]. exists (t ++ u). now rewrite app_assoc. Qed.

Lemma prefix_firstn p s : is_prefix p s <-> firstn (length p) s = p.
Proof.
  split.
  - intros [t ->]. rewrite firstn_app, Nat.sub_diag, firstn_all. cbn. apply app_nil_r.
  - intros H. exists (skipn (length p) s). rewrite <- H at 1. symmetry. apply firstn_skipn.
Qed.

(** Position of [s] relative to the block of sequences that start with [p]. *)
Fixpoint pcmp (s p : list N) {struct p} : comparison :=
  match p with
  | [] => Eq
  | y :: p' =>
      match s with
      | [] => Lt
      | x :: s' => match N.compare x y with Eq => pcmp s' p' | c => c end
      end
  end.

Lemma pcmp_eq s p : pcmp s p = Eq <-> is_prefix p s.
Proof.
  revert s; induction p as [|y p IH]; intros s; cbn.
  - split; auto using prefix_nil.
  - destruct s as [|x s].
    + split; [discriminate|]. intros [t Ht]; discriminate.
    + rewrite prefix_cons. destruct (N.compare_spec x y) as [->|H|H].
      * rewrite IH. intuition.
      * split; [discriminate|lia].
      * split; [discriminate|lia].
Qed.

Lemma pcmp_lt s p : pcmp s p = Lt <-> lex_lt s p.
Proof.
  revert s; induction p as [|y p IH]; intros s; cbn.
  - split; [discriminate|intros H; inversion H].
  - destruct s as [|x s].
    + split; [constructor|auto].
    + destruct (N.compare_spec x y) as [->|H|H].
      * rewrite IH. split; [now constructor|]. intros H; inversion H; subst; [lia|auto].
      * split; [now constructor|auto].
      * split; [discriminate|]. intros H0; inversion H0; subst; lia.
Qed.

Lemma pcmp_gt s p : pcmp s p = Gt <-> lex_lt p s /\ ~ is_prefix p s.
Proof.
  split.
  - intros H. assert (~ is_prefix p s) by (rewrite <- pcmp_eq; congruence).
    split; [|assumption].
    destruct (lex_total p s) as [|[->|]]; auto.
    + now destruct (H0 (prefix_refl _)).
    + apply pcmp_lt in H1. congruence.
  - intros [H1 H2]. destruct (pcmp s p) eqn:E; auto.
    + apply pcmp_eq in E. tauto.
    + apply pcmp_lt in E. destruct (lex_asym _ _ H1 E).
Qed.

Lemma pcmp_mono a b p : lex_lt a b ->
  (pcmp a p = Gt -> pcmp b p = Gt) /\ (pcmp b p = Lt -> pcmp a p = Lt).
Proof.
  revert a b; induction p as [|y p IH]; intros a b H; cbn.
  - split; discriminate.
  - destruct H as [y' ys|x x' xs ys Hx|x xs ys H].
    + split; [discriminate|auto].
    + destruct (N.compare_spec x y), (N.compare_spec x' y); subst; split; intros; try discriminate; auto; lia.
    + destruct (N.compare_spec x y); subst; auto. 
Qed.

(** Sorted lists. *)
Lemma lex_sorted_tl a l : lex_sorted (a :: l) -> lex_sorted l.
Proof. cbn. tauto. Qed.

Lemma lex_sorted_head a l x : lex_sorted (a :: l) -> In x l -> lex_lt a x.
Proof.
  revert a; induction l as [|b l IH]; intros a H Hin; [destruct Hin|].
  cbn in H. destruct H as [Hab Hs]. destruct Hin as [->|Hin]; [assumption|].
  apply lex_trans with b; [assumption|]. apply IH; assumption.
Qed.

Lemma lex_sorted_nth l i j d :
  lex_sorted l -> i < j < length l -> lex_lt (nth i l d) (nth j l d).
Proof.
  revert i j; induction l as [|a l IH]; intros i j Hs Hij; cbn [length] in Hij; [lia|].
  destruct j as [|j]; [lia|]. destruct i as [|i].
  - cbn [nth]. apply (lex_sorted_head _ _ _ Hs). apply nth_In. lia.
  - cbn [nth]. apply IH; [eapply lex_sorted_tl; eassumption|lia].
Qed.

Lemma lex_sorted_nth_inj l i j d :
  lex_sorted l -> i < length l -> j < length l -> nth i l d = nth j l d -> i = j.
Proof.
  intros Hs Hi Hj E. destruct (Nat.lt_trichotomy i j) as [H|[H|H]]; auto.
  - pose proof (lex_sorted_nth l i j d Hs ltac:(lia)) as L. rewrite E in L.
    destruct (lex_irrefl _ L).
  - pose proof (lex_sorted_nth l j i d Hs ltac:(lia)) as L. rewrite E in L.
    destruct (lex_irrefl _ L).
Qed.

Lemma lex_sorted_NoDup l : lex_sorted l -> NoDup l.
Proof.
  induction l as [|a l IH]; intros H; constructor.
  - intros Hin. exact (lex_irrefl _ (lex_sorted_head _ _ _ H Hin)).
  - apply IH. eapply lex_sorted_tl; eassumption.
Qed.

Lemma lex_sorted_cons a l :
  (forall x, In x l -> lex_lt a x) -> lex_sorted l -> lex_sorted (a :: l).
Proof. intros H Hs. cbn. split; [|assumption]. destruct l; [exact I|]. apply H. now left. Qed.

Lemma lex_sorted_app l1 l2 :
  lex_sorted l1 -> lex_sorted l2 ->
  (forall x y, In x l1 -> In y l2 -> lex_lt x y) -> lex_sorted (l1 ++ l2).
Proof.
  induction l1 as [|a l1 IH]; intros H1 H2 H; [assumption|]. cbn [app].
  apply lex_sorted_cons.
  - intros x Hin. apply in_app_or in Hin as [Hin|Hin].
    + apply (lex_sorted_head _ _ _ H1 Hin).
    + apply H; [now left|assumption].
  - apply IH; auto. { eapply lex_sorted_tl; eassumption. } intros; apply H; auto; now right.
Qed.

Lemma lex_sorted_app_inv l1 l2 : lex_sorted (l1 ++ l2) ->
  lex_sorted l1 /\ lex_sorted l2 /\ (forall x y, In x l1 -> In y l2 -> lex_lt x y).
Proof.
  induction l1 as [|a l1 IH]; intros H.
  - repeat split; auto. intros x y [].
  - cbn [app] in H. destruct (IH (lex_sorted_tl _ _ H)) as (H1 & H2 & H3).
    repeat split; auto.
    + destruct l1; [exact I|]. apply (lex_sorted_head _ _ _ H). now left.
    + intros x y [->|Hx] Hy; auto. apply (lex_sorted_head _ _ _ H). apply in_or_app. now right.
Qed.
