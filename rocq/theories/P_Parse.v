(** Correctness of parse and deduplicate. *)
From Verif Require Import Base S_Parse M_Parse.
From Coq Require Import Sorting.Permutation Sorting.Sorted.

Lemma take_token_spec r t rest : take_token r = (t, rest) ->
  r = t ++ rest /\ no_space t /\ (rest = [] \/ exists rest', rest = 32%N :: rest').
Proof.
  revert t rest; induction r as [|x r IH]; cbn; intros t rest H.
  - injection H as <- <-. repeat split; auto. constructor.
  - unfold SPACE in H. destruct (N.eqb_spec x 32) as [->|Hne].
    + injection H as <- <-. split; [reflexivity|]. split; [constructor|]. right. now exists r.
    + destruct (take_token r) as [t' rest']. injection H as <- <-.
      destruct (IH t' rest' eq_refl) as (-> & Hn & Hr). repeat split; auto. constructor; auto.
Qed.

Lemma skip_spaces_spec r : exists k, r = repeat 32%N k ++ skip_spaces r /\
  (skip_spaces r = [] \/ exists x r', skip_spaces r = x :: r' /\ x <> 32%N).
Proof.
  induction r as [|x r IH]; cbn.
  - exists 0. auto.
  - unfold SPACE. destruct (N.eqb_spec x 32) as [->|Hne].
    + destruct IH as (k & E & H). exists (S k). cbn. rewrite <- E. auto.
    + exists 0. split; [reflexivity|]. right. eauto.
Qed.

Lemma words_repeat k r ts : words r ts -> words (repeat 32%N k ++ r) ts.
Proof. induction k; cbn; auto using words_space. Qed.

Section ParseCorrect.
  Variable St : Type.
  Variable locate : list N -> St -> res (option nat * St).
  Variable dic : list N -> option nat.
  Variable Inv : St -> Prop.
  Variable Good : list N -> Prop.
  Hypothesis locate_ok : forall t st, Good t -> Inv st -> exists st', locate t st = Ok (dic t, st') /\ Inv st'.

  Lemma parse_loop_ok must fuel r prefix st :
    (forall a t b, r = a ++ t ++ b -> Good t) ->
    Inv st -> length r < fuel ->
    exists st' ts last, Inv st' /\ query_split r ts last /\
      ((must = true /\ ~ all_known dic ts /\
        loop fuel (parse_step St locate must) (r, prefix, st) = Ok (None, st')) \/
       ((must = true -> all_known dic ts) /\
        loop fuel (parse_step St locate must) (r, prefix, st) = Ok (Some (prefix ++ known_ids dic ts, last), st'))).
  Proof.
    revert r prefix st; induction fuel as [|fuel IH]; intros r prefix st HG HI Hf; [lia|].
    cbn [loop]. unfold parse_step at 1 3.
    unfold bri_next. destruct (skip_spaces_spec r) as (k & Er & Hsp).
    destruct (take_token (skip_spaces r)) as [t rest] eqn:Et.
    destruct (take_token_spec _ _ _ Et) as (E1 & Hns & Hrest).
    unfold bri_has_next. rewrite negb_involutive.
    destruct (Nat.eqb_spec (length rest) 0) as [Hz|Hnz].
    - (* last token *)
      assert (rest = []) by (destruct rest; [reflexivity|discriminate]). subst rest.
      exists st, [], t. split; [assumption|]. split.
      + exists (repeat 32%N k). rewrite Er, E1, app_nil_r. repeat split; auto.
        pose proof (words_repeat k [] [] words_nil) as Hw. now rewrite app_nil_r in Hw.
      + right. split; [constructor|]. cbn. now rewrite app_nil_r.
    - destruct Hrest as [->|[rest' ->]]; [cbn in Hnz; lia|].
      assert (Htne : t <> []).
      { intros ->. cbn in E1. destruct Hsp as [Hsp|(x & r' & Hsp & Hx)]; rewrite Hsp in E1; congruence. }
      assert (HGt : Good t). { apply (HG (repeat 32%N k) t (32%N :: rest')). rewrite Er, E1. reflexivity. }
      destruct (locate_ok t st HGt HI) as (st1 & El & HI1). rewrite El. cbn [bind].
      assert (Hlen : length (32%N :: rest') < fuel).
      { rewrite Er, E1, !app_length in Hf. cbn [length] in *. destruct t; [congruence|]. cbn [length] in Hf. lia. }
      assert (HG' : forall a t0 b, 32%N :: rest' = a ++ t0 ++ b -> Good t0).
      { intros a t0 b Ha. apply (HG (repeat 32%N k ++ t ++ a) t0 b). rewrite Er, E1, Ha, <- !app_assoc. reflexivity. }
      assert (Hsplit : forall ts last, query_split (32%N :: rest') ts last -> query_split r (t :: ts) last).
      { intros ts last (body & Eb & Hl & Hw). rewrite Er, E1.
        destruct body as [|y body]; cbn in Eb.
        - exfalso. subst last. inversion Hl; subst. congruence.
        - injection Eb as <- Eb. exists (repeat 32%N k ++ t ++ 32%N :: body).
          rewrite <- !app_assoc. cbn. rewrite Eb. split; [reflexivity|]. split; [assumption|].
          apply words_repeat. apply words_word; auto.
          inversion Hw as [|r0 ts0 Hw0 H1 H2|w r0 ts0 Hw1 Hw2 Hw3 H1 H2]; subst.
          + assumption.
          + exfalso. destruct w as [|c w]; [congruence|]. cbn in H1. injection H1 as -> _.
            inversion Hw2; subst; congruence. }
      destruct (dic t) as [i|] eqn:Ed.
      + destruct (IH (32%N :: rest') (prefix ++ [i]) st1 HG' HI1 Hlen) as (st' & ts & last & HI' & Hq & Hres).
        exists st', (t :: ts), last. split; [assumption|]. split; [now apply Hsplit|].
        destruct Hres as [(Hm & Hk & E)|(Hk & E)].
        * left. split; [assumption|]. split; [|assumption]. intros Ha. apply Hk. now inversion Ha.
        * right. split; [intros Hm; constructor; [congruence|exact (Hk Hm)]|].
          etransitivity; [exact E|]. cbn [known_ids]. rewrite Ed, <- app_assoc. reflexivity.
      + destruct must.
        * (* stop *)
          assert (Hex : exists ts last, query_split (32%N :: rest') ts last).
          { destruct (IH (32%N :: rest') prefix st1 HG' HI1 Hlen) as (? & ts & last & _ & Hq & _). eauto. }
          destruct Hex as (ts & last & Hq).
          exists st1, (t :: ts), last. split; [assumption|]. split; [now apply Hsplit|].
          left. split; [reflexivity|]. split; [|reflexivity]. intros Ha. inversion Ha; subst; congruence.
        * destruct (IH (32%N :: rest') prefix st1 HG' HI1 Hlen) as (st' & ts & last & HI' & Hq & Hres).
          exists st', (t :: ts), last. split; [assumption|]. split; [now apply Hsplit|].
          destruct Hres as [(Hm & _)|(Hk & E)]; [discriminate|].
          right. split; [discriminate|]. etransitivity; [exact E|]. cbn [known_ids]. now rewrite Ed.
  Qed.
End ParseCorrect.

(** The decomposition is unique. *)
Lemma words_last_space body ts : words body ts -> body = [] \/ exists b, body = b ++ [32%N].
Proof.
  induction 1 as [|r ts H IH|w r ts Hw Hn H IH].
  - now left.
  - right. destruct IH as [->|[b ->]]; [now exists []|]. now exists (32%N :: b).
  - right. destruct IH as [->|[b ->]]; [now exists w|].
    exists (w ++ 32%N :: b). now rewrite <- app_assoc.
Qed.

Lemma no_space_app a b : no_space (a ++ b) <-> no_space a /\ no_space b.
Proof. unfold no_space. apply Forall_app. Qed.

Lemma words_split_head w1 w2 r1 r2 :
  no_space w1 -> no_space w2 -> w1 ++ 32%N :: r1 = w2 ++ 32%N :: r2 -> w1 = w2 /\ r1 = r2.
Proof.
  revert w2; induction w1 as [|x w1 IH]; intros w2 H1 H2 E.
  - destruct w2 as [|y w2]; cbn in E; [injection E as ->; auto|]. injection E as <- E.
    inversion H2; subst. congruence.
  - destruct w2 as [|y w2]; cbn in E.
    + injection E as -> E. inversion H1; subst. congruence.
    + injection E as -> E. inversion H1; inversion H2; subst.
      destruct (IH w2 ltac:(assumption) ltac:(assumption) E) as [-> ->]. auto.
Qed.

Lemma words_det body ts1 ts2 : words body ts1 -> words body ts2 -> ts1 = ts2.
Proof.
  intros H1; revert ts2; induction H1 as [|r ts H IH|w r ts Hw Hn H IH]; intros ts2 H2.
  - inversion H2; subst; auto. destruct w; discriminate.
  - inversion H2 as [|r0 ts0 H0 E1 E2|w r0 ts0 Hw Hn H0 E1 E2]; subst; auto.
    destruct w as [|c w]; [congruence|]. cbn in E1. injection E1 as -> _. inversion Hn; subst; congruence.
  - inversion H2 as [E1|r0 ts0 H0 E1 E2|w0 r0 ts0 Hw0 Hn0 H0 E1 E2]; subst.
    + destruct w; discriminate.
    + destruct w as [|c w]; [congruence|]. cbn in E1. injection E1 as <- _. inversion Hn; subst; congruence.
    + destruct (words_split_head w0 w r0 r Hn0 Hn E1) as [-> ->]. f_equal. auto.
Qed.

Lemma body_unique b1 b2 l1 l2 :
  b1 ++ l1 = b2 ++ l2 -> no_space l1 -> no_space l2 ->
  (b1 = [] \/ exists b, b1 = b ++ [32%N]) -> (b2 = [] \/ exists b, b2 = b ++ [32%N]) ->
  b1 = b2 /\ l1 = l2.
Proof.
  revert b2; induction b1 as [|x b1 IH]; intros b2 E N1 N2 S1 S2.
  - destruct b2 as [|y b2]; [auto|]. exfalso. destruct S2 as [S2|[b S2]]; [discriminate|].
    rewrite S2 in E. cbn in E. subst l1. rewrite <- app_assoc in N1. apply no_space_app in N1 as [_ N1].
    inversion N1; subst. congruence.
  - destruct b2 as [|y b2].
    + exfalso. destruct S1 as [S1|[b S1]]; [discriminate|].
      rewrite S1 in E. cbn in E. subst l2. rewrite <- app_assoc in N2. apply no_space_app in N2 as [_ N2].
      inversion N2; subst. congruence.
    + cbn in E. injection E as -> E.
      assert (T : forall b, (y :: b = [] \/ exists c, y :: b = c ++ [32%N]) -> b = [] \/ exists c, b = c ++ [32%N]).
      { intros b [H|[c H]]; [discriminate|]. destruct c as [|z c]; cbn in H; injection H as <- ->; [now left|right; eauto]. }
      destruct (IH b2 E N1 N2 (T _ S1) (T _ S2)) as [-> ->]. auto.
Qed.

Lemma query_split_det q ts1 l1 ts2 l2 :
  query_split q ts1 l1 -> query_split q ts2 l2 -> ts1 = ts2 /\ l1 = l2.
Proof.
  intros (b1 & -> & N1 & W1) (b2 & E & N2 & W2).
  destruct (body_unique b1 b2 l1 l2 E N1 N2 (words_last_space _ _ W1) (words_last_space _ _ W2)) as [-> ->].
  split; [eapply words_det; eassumption|reflexivity].
Qed.

(** Existence (every query splits). *)
Lemma query_split_ex q : exists ts last, query_split q ts last.
Proof.
  destruct (parse_loop_ok unit (fun _ st => Ok (None, st)) (fun _ => None) (fun _ => True) (fun _ => True)
              ltac:(eauto) false (length q + 2) q [] tt) as (_ & ts & last & _ & H & _); auto; try lia.
  eauto.
Qed.

Lemma parse_ok (St : Type) (locate : list N -> St -> res (option nat * St)) dic (Inv : St -> Prop) (Good : list N -> Prop)
  (Hloc : forall t st, Good t -> Inv st -> exists st', locate t st = Ok (dic t, st') /\ Inv st')
  must q st ts last :
  (forall a t b, q = a ++ t ++ b -> Good t) ->
  Inv st -> query_split q ts last ->
  exists st', Inv st' /\
    ((must = true /\ ~ all_known dic ts /\ parse St locate must q st = Ok (None, st')) \/
     ((must = true -> all_known dic ts) /\
      parse St locate must q st = Ok (Some (known_ids dic ts, last), st'))).
Proof.
  intros HG HI Hq.
  destruct (parse_loop_ok St locate dic Inv Good Hloc must (length q + 2) q [] st HG HI ltac:(lia))
    as (st' & ts' & last' & HI' & Hq' & H).
  destruct (query_split_det _ _ _ _ _ Hq Hq') as [-> ->].
  exists st'. split; [assumption|exact H].
Qed.

(** ** deduplicate: the strictly increasing list with the same elements *)
Lemma insert_nat_In x y l : In y (insert_nat x l) <-> y = x \/ In y l.
Proof.
  induction l as [|z l IH]; cbn; [intuition|].
  destruct (x <=? z); cbn; [intuition|]. rewrite IH. intuition.
Qed.
Lemma sort_nat_In y l : In y (sort_nat l) <-> In y l.
Proof. induction l as [|x l IH]; cbn; [tauto|]. rewrite insert_nat_In, IH. intuition. Qed.

Fixpoint le_sorted (l : list nat) : Prop :=
  match l with [] => True | a :: r => match r with [] => True | b :: _ => a <= b end /\ le_sorted r end.
Fixpoint lt_sorted (l : list nat) : Prop :=
  match l with [] => True | a :: r => match r with [] => True | b :: _ => a < b end /\ lt_sorted r end.

Lemma insert_nat_sorted x l : le_sorted l -> le_sorted (insert_nat x l).
Proof.
  induction l as [|y l IH]; cbn; [auto|]. intros [H1 H2].
  destruct (Nat.leb_spec x y); cbn; [auto|]. split; [|auto].
  destruct l as [|z l]; cbn; [lia|]. destruct (x <=? z); cbn; lia.
Qed.
Lemma sort_nat_sorted l : le_sorted (sort_nat l).
Proof. induction l; cbn; [exact I|]. now apply insert_nat_sorted. Qed.

Lemma uniq_In y l : In y (uniq l) <-> In y l.
Proof.
  induction l as [|x l IH]; [tauto|]. cbn [uniq]. destruct l as [|z l]; [tauto|].
  destruct (Nat.eqb_spec x z) as [->|Hne].
  - rewrite IH. cbn. intuition.
  - cbn [In]. rewrite IH. cbn. intuition.
Qed.
Lemma uniq_cons_head x l : exists l', uniq (x :: l) = x :: l'.
Proof.
  revert x; induction l as [|y l IH]; intros x; [now exists []|].
  cbn [uniq]. destruct (Nat.eqb_spec x y) as [->|].
  - apply IH.
  - eauto.
Qed.
Lemma uniq_sorted l : le_sorted l -> lt_sorted (uniq l).
Proof.
  induction l as [|x l IH]; [auto|]. intros H. destruct l as [|y l]; [cbn; auto|].
  destruct H as [H1 H2]. specialize (IH H2). cbn [uniq].
  change (match l with [] => [y] | z :: _ => if y =? z then uniq l else y :: uniq l end) with (uniq (y :: l)).
  destruct (Nat.eqb_spec x y) as [->|Hne]; [assumption|].
  destruct (uniq_cons_head y l) as [l' E]. rewrite E in *. cbn [lt_sorted] in *. split; [lia|assumption].
Qed.

Lemma deduplicate_ok c :
  lt_sorted (deduplicate c) /\ forall x, In x (deduplicate c) <-> In x c.
Proof.
  unfold deduplicate. split.
  - apply uniq_sorted, sort_nat_sorted.
  - intros x. now rewrite uniq_In, sort_nat_In.
Qed.

Lemma lt_sorted_head a l x : lt_sorted (a :: l) -> In x l -> a < x.
Proof.
  revert a; induction l as [|b l IH]; intros a H Hin; [destruct Hin|].
  destruct H as [Hab Hs]. destruct Hin as [->|Hin]; [assumption|]. specialize (IH b Hs Hin). lia.
Qed.
Lemma lt_sorted_tl a l : lt_sorted (a :: l) -> lt_sorted l.
Proof. cbn; tauto. Qed.
Lemma lt_sorted_ext l1 l2 : lt_sorted l1 -> lt_sorted l2 -> (forall x, In x l1 <-> In x l2) -> l1 = l2.
Proof.
  revert l2; induction l1 as [|a l1 IH]; intros l2 H1 H2 E.
  - destruct l2 as [|b l2]; [reflexivity|]. destruct (proj2 (E b)); now left.
  - destruct l2 as [|b l2]; [destruct (proj1 (E a)); now left|].
    assert (a = b).
    { destruct (proj1 (E a) (or_introl eq_refl)) as [->|Ha]; [reflexivity|].
      destruct (proj2 (E b) (or_introl eq_refl)) as [->|Hb]; [reflexivity|].
      pose proof (lt_sorted_head _ _ _ H1 Hb). pose proof (lt_sorted_head _ _ _ H2 Ha). lia. }
    subst b. f_equal. apply IH; eauto using lt_sorted_tl.
    intros x. split; intros Hx.
    + destruct (proj1 (E x) (or_intror Hx)) as [->|]; [|assumption].
      pose proof (lt_sorted_head _ _ _ H1 Hx). lia.
    + destruct (proj2 (E x) (or_intror Hx)) as [->|]; [|assumption].
      pose proof (lt_sorted_head _ _ _ H2 Hx). lia.
Qed.

Lemma deduplicate_perm c1 c2 : (forall x, In x c1 <-> In x c2) -> deduplicate c1 = deduplicate c2.
Proof.
  intros H. destruct (deduplicate_ok c1) as [S1 I1], (deduplicate_ok c2) as [S2 I2].
  apply lt_sorted_ext; auto. intros x. now rewrite I1, I2.
Qed.
