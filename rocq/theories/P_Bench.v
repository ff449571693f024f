(** Proofs about the benchmark programs. *)
From Coq Require Import Sorted.
From Verif Require Import Base S_Collection S_Bench M_Auto M_Bench.
Local Open Scope nat_scope.

Lemma list_sum_concat (ls : list (list nat)) : list_sum (concat ls) = list_sum (map list_sum ls).
Proof. induction ls as [|l ls IH]; [reflexivity|]. cbn [concat map list_sum fold_right]. rewrite list_sum_app, IH. reflexivity. Qed.
Lemma Forall2_split {A B} (R : A -> B -> Prop) l1 : forall l2 m, Forall2 R (l1 ++ l2) m -> exists m1 m2, m = m1 ++ m2 /\ Forall2 R l1 m1 /\ Forall2 R l2 m2.
Proof. intros l2 m H. apply Forall2_app_inv_l in H as (m1 & m2 & H1 & H2 & ->). eauto. Qed.
Section Serve.
  Variable A : request -> list (nat * list N) -> Prop.
  Hypothesis A_unique : forall r o1 o2, A r o1 -> A r o2 -> o1 = o2.
  Lemma answers_unique rs : forall o1 o2, Forall2 A rs o1 -> Forall2 A rs o2 -> o1 = o2.
  Proof.
    induction rs as [|r rs IH]; intros o1 o2 H1 H2; inversion H1; inversion H2; subst; [reflexivity|]. f_equal; [eapply A_unique; eauto|now apply IH].
  Qed.
  Lemma repeated_answers rs m : forall outs, Forall2 A (concat (repeat rs m)) outs -> forall answers, Forall2 A rs answers -> outs = concat (repeat answers m).
  Proof.
    induction m as [|m IH]; intros outs H answers Ha; cbn [repeat concat] in *; [now inversion H|].
    apply Forall2_split in H as (m1 & m2 & -> & H1 & H2). f_equal; [exact (answers_unique rs _ _ H1 Ha)|now apply IH].
  Qed.
  Lemma sum_repeated {B} (f : B -> nat) l m : list_sum (map f (concat (repeat l m))) = m * list_sum (map f l).
  Proof. induction m as [|m IH]; [reflexivity|]. cbn [repeat concat]. rewrite map_app, list_sum_app, IH. lia. Qed.

  Variable serve : list request -> res (list (list (nat * list N))).
  Variable ok : request -> Prop.
  Hypothesis serve_ok : forall rs, Forall ok rs -> exists outs, serve rs = Ok outs /\ Forall2 A rs outs.
  Lemma benchmark_ok conj k queries : Forall ok (map (ask conj k) queries) ->
    exists answers, Forall2 A (map (ask conj k) queries) answers /\ benchmark serve conj k queries = Ok (length queries, list_sum (map (@length _) answers)).
  Proof.
    intros H. destruct (serve_ok (concat (repeat (map (ask conj k) queries) RUNS))) as (outs & E & Ho).
    { rewrite Forall_forall in H |- *. intros r Hr. apply in_concat in Hr as (l & Hl & Hr). apply repeat_spec in Hl as ->. now apply H. }
    unfold benchmark. rewrite E. cbn [bind]. pose proof Ho as Ho'. unfold RUNS in Ho'. cbn [repeat concat] in Ho'. apply Forall2_split in Ho' as (answers & rest & _ & Ha & _).
    exists answers. split; [exact Ha|]. rewrite (repeated_answers _ _ _ Ho _ Ha), sum_repeated. f_equal. f_equal. rewrite Nat.mul_comm. apply Nat.div_mul. discriminate.
  Qed.

  Lemma set_difference_ok l1 : forall l2, StronglySorted lt l1 -> StronglySorted lt l2 ->
    set_difference l1 l2 = filter (fun d => negb (existsb (Nat.eqb d) l2)) l1.
  Proof.
    induction l1 as [|x l1 IH]; intros l2; [destruct l2; reflexivity|]. intros S1. inversion S1 as [|? ? S1' F1]; subst. rewrite Forall_forall in F1.
    assert (Hfil : forall l, (forall d, In d l1 -> In d l -> False) -> filter (fun d => negb (existsb (Nat.eqb d) l)) l1 = l1).
    { intros l Hno. assert (G : forall m, (forall d, In d m -> In d l -> False) -> filter (fun d => negb (existsb (Nat.eqb d) l)) m = m).
      { induction m as [|a m IHm]; [reflexivity|]. intros Hm. cbn [filter]. destruct (existsb (Nat.eqb a) l) eqn:E.
        - apply existsb_exists in E as (b & Hb & E). apply Nat.eqb_eq in E. subst b. exfalso. exact (Hm a (or_introl eq_refl) Hb).
        - cbn [negb]. f_equal. apply IHm. intros d Hd. apply Hm. now right. }
      exact (G l1 Hno). }
    induction l2 as [|y l2 IH2]; intros S2; cbn [set_difference].
    - cbn [filter existsb negb]. f_equal. symmetry. exact (Hfil [] (fun d _ H => H)).
    - inversion S2 as [|? ? S2' F2]; subst. rewrite Forall_forall in F2. destruct (Nat.ltb_spec x y) as [Hxy|Hxy].
      + cbn [filter]. replace (existsb (Nat.eqb x) (y :: l2)) with false; [cbn [negb]; f_equal; now apply IH|].
        symmetry. apply Bool.not_true_is_false. intros E. apply existsb_exists in E as (b & [<-|Hb] & E); apply Nat.eqb_eq in E; [lia|]. specialize (F2 b Hb). lia.
      + destruct (Nat.ltb_spec y x) as [Hyx|Hyx].
        * specialize (IH2 S2'). cbn [set_difference] in IH2. rewrite IH2. apply filter_ext_in. intros d Hd. cbn [existsb]. destruct (Nat.eqb_spec d y); [|reflexivity].
          subst. destruct Hd as [->|Hd]; [lia|]. specialize (F1 _ Hd). lia.
        * assert (x = y) by lia. subst y. cbn [filter existsb]. rewrite Nat.eqb_refl. cbn [orb negb]. rewrite (IH l2 S1' S2'). apply filter_ext_in. intros d Hd.
          destruct (Nat.eqb_spec d x); [|reflexivity]. subst. specialize (F1 _ Hd). lia.
  Qed.

  Lemma better_ok k pre : forall con, length pre = length con -> Forall (fun o => StronglySorted lt (map fst o)) pre ->
    Forall (fun o => StronglySorted lt (map fst o) /\ length o <= k) con -> exists s, better k pre con = Ok s /\ gains pre con s.
  Proof.
    induction pre as [|p pre IH]; intros con Hl Hp Hc; destruct con as [|c con]; try discriminate; [exists 0; split; [reflexivity|constructor]|].
    inversion Hp as [|? ? Hp1 Hp2]; inversion Hc as [|? ? (Hc1 & Hc2) Hc3]; subst. cbn [better]. rewrite (set_difference_ok _ _ Hc1 Hp1).
    set (ds := filter _ _). assert (Hd : length ds <= k).
    { unfold ds. etransitivity; [|exact Hc2]. rewrite <- (map_length fst c). generalize (map fst c). intros l. induction l as [|a l IHl]; [reflexivity|].
      cbn [filter]. destruct (negb _); cbn [length]; lia. }
    destruct (Nat.ltb_spec k (length ds)); [lia|]. destruct (IH con ltac:(cbn in Hl; lia) Hp2 Hc3) as (s & E & Hs). rewrite E. cbn [bind].
    exists (length ds + s). split; [reflexivity|]. constructor; [|exact Hs]. exists ds. split; [|split; [reflexivity|]].
    - apply NoDup_filter. clear -Hc1. induction Hc1 as [|a l Hl IHl Hf]; constructor; [|exact IHl]. intros Hin. rewrite Forall_forall in Hf. specialize (Hf a Hin). lia.
    - intros d. unfold ds. rewrite filter_In. split; intros (H1 & H2); (split; [exact H1|]).
      + intros Hin. apply Bool.negb_true_iff in H2. apply Bool.not_true_iff_false in H2. apply H2. apply existsb_exists. exists d. split; [exact Hin|apply Nat.eqb_refl].
      + apply Bool.negb_true_iff, Bool.not_true_is_false. intros E'. apply existsb_exists in E' as (b & Hb & E'). apply Nat.eqb_eq in E'. now subst.
  Qed.
  Hypothesis A_sorted : forall r out, A r out -> StronglySorted lt (map fst out).
  Hypothesis A_limit : forall r out, A r out -> rq_k r <> 0 -> length out <= rq_k r.
  Lemma effectiveness_ok k queries : k <> 0 -> Forall ok (map (ask false k) queries) -> Forall ok (map (ask true k) queries) ->
    exists pre con more, Forall2 A (map (ask false k) queries) pre /\ Forall2 A (map (ask true k) queries) con /\ gains pre con more /\
      effectiveness serve k queries = Ok (list_sum (map (@length _) pre), more).
  Proof.
    intros Hk H1 H2. destruct (serve_ok _ H1) as (pre & E1 & A1). destruct (serve_ok _ H2) as (con & E2 & A2).
    destruct (better_ok k pre con) as (s & E & Hs).
    - transitivity (length queries); [|symmetry]; [clear -A1|clear -A2]; [revert pre A1|revert con A2]; induction queries as [|q qs IH]; intros o H; inversion H; subst; cbn [length]; auto.
    - clear -A1 A_sorted. revert A1. generalize (map (ask false k) queries). intros rs H. induction H; constructor; eauto.
    - clear -A2 A_sorted A_limit Hk. revert con A2. induction queries as [|q qs IH]; intros con H; inversion H; subst; constructor; [|now apply IH].
      split; [eauto|]. eapply (A_limit (ask true k q)); eauto.
    - exists pre, con, s. split; [exact A1|]. split; [exact A2|]. split; [exact Hs|]. unfold effectiveness. rewrite E1. cbn [bind]. rewrite E2. cbn [bind]. rewrite E. reflexivity.
  Qed.
End Serve.
