(** Proofs: the numbers of nodes in .mapped.stats. *)
From Verif Require Import Base S_Python S_Order P_Order S_Prep M_Prep P_PrepText P_PrepDict.
Local Open Scope nat_scope.

(** ** The dictionary of levels *)
Definition table_of (v : nat -> nat) (m : nat) : list (nat * nat) := map (fun i => (i, v i)) (seq 0 m).
Lemma get_table (v : nat -> nat) k m : forall a, a <= k < a + m -> dict_get Nat.eqb (map (fun i => (i, v i)) (seq a m)) k = Some (v k).
Proof.
  induction m as [|m IH]; intros a H; [lia|]. cbn [seq map dict_get]. destruct (Nat.eqb_spec k a) as [->|Hn]; [reflexivity|]. apply IH. lia.
Qed.
Lemma get_table_none (v : nat -> nat) k m : forall a, a + m <= k -> dict_get Nat.eqb (map (fun i => (i, v i)) (seq a m)) k = None.
Proof. induction m as [|m IH]; intros a H; [reflexivity|]. cbn [seq map dict_get]. destruct (Nat.eqb_spec k a) as [->|Hn]; [lia|]. apply IH. lia. Qed.
Lemma set_table (v : nat -> nat) k x m : forall a, a <= k < a + m -> dict_set Nat.eqb (map (fun i => (i, v i)) (seq a m)) k x = map (fun i => (i, if i =? k then x else v i)) (seq a m).
Proof.
  induction m as [|m IH]; intros a H; [lia|]. cbn [seq map dict_set]. destruct (Nat.eqb_spec k a) as [->|Hn].
  - rewrite Nat.eqb_refl. f_equal. apply map_ext_in. intros i Hi. apply in_seq in Hi. destruct (Nat.eqb_spec i a); [lia|reflexivity].
  - destruct (Nat.eqb_spec a k); [lia|]. f_equal. apply IH. lia.
Qed.
Lemma set_table_new (v : nat -> nat) k x m : forall a, a + m <= k -> dict_set Nat.eqb (map (fun i => (i, v i)) (seq a m)) k x = map (fun i => (i, v i)) (seq a m) ++ [(k, x)].
Proof. induction m as [|m IH]; intros a H; [reflexivity|]. cbn [seq map dict_set]. destruct (Nat.eqb_spec k a) as [->|Hn]; [lia|]. rewrite IH by lia. reflexivity. Qed.
Definition bit (b : bool) : nat := if b then 1 else 0.
Lemma count_table n : forall (v : nat -> nat) m level, level <= m -> (forall i, m <= i -> v i = 0) ->
  count_levels (table_of v m) level n = table_of (fun i => v i + bit ((level <=? i) && (i <? level + n))) (Nat.max m (level + n)).
Proof.
  induction n as [|n IH]; intros v m level Hl Hv; cbn [count_levels].
  - rewrite Nat.max_l by lia. unfold table_of. apply map_ext. intros i. destruct (Nat.leb_spec level i), (Nat.ltb_spec i (level + 0)); cbn [andb bit]; try lia; f_equal; lia.
  - set (v' := fun i => if i =? level then v level + 1 else v i).
    assert (E : (match dict_get Nat.eqb (table_of v m) level with Some v0 => dict_set Nat.eqb (table_of v m) level (v0 + 1) | None => dict_set Nat.eqb (table_of v m) level 1 end)
      = table_of v' (Nat.max m (level + 1))).
    { unfold table_of, v'. destruct (Nat.eq_dec level m) as [->|Hne].
      - rewrite get_table_none by lia. rewrite set_table_new by lia. rewrite Nat.max_r by lia. replace (m + 1) with (S m) by lia. rewrite seq_S, map_app. cbn [map Nat.add]. rewrite Nat.eqb_refl, Hv by lia.
        f_equal. apply map_ext_in. intros i Hi. apply in_seq in Hi. destruct (Nat.eqb_spec i m); [lia|reflexivity].
      - rewrite get_table by lia. rewrite set_table by lia. rewrite Nat.max_l by lia. reflexivity. }
    rewrite E. rewrite IH.
    + replace (Nat.max (Nat.max m (level + 1)) (level + 1 + n)) with (Nat.max m (level + S n)) by lia. unfold table_of. apply map_ext. intros i. f_equal. unfold v'.
      destruct (Nat.eqb_spec i level) as [->|Hne].
      * destruct (Nat.leb_spec (level + 1) level), (Nat.leb_spec level level), (Nat.ltb_spec level (level + S n)); cbn [andb bit]; lia.
      * destruct (Nat.leb_spec (level + 1) i), (Nat.leb_spec level i), (Nat.ltb_spec i (level + 1 + n)), (Nat.ltb_spec i (level + S n)); cbn [andb bit]; lia.
    + lia.
    + intros i Hi. unfold v'. destruct (Nat.eqb_spec i level); [lia|]. apply Hv. lia.
Qed.

(** ** Counting new prefixes *)
Fixpoint commonN (q prev : list N) : nat :=
  match q, prev with a :: q', b :: prev' => if (a =? b)%N then S (commonN q' prev') else 0 | _, _ => 0 end.
Lemma common_str q : forall prev, common (map str q) (map str prev) = commonN q prev.
Proof.
  induction q as [|a q IH]; intros [|b prev]; cbn [map common commonN]; try reflexivity. destruct (str_eqb_spec (str a) (str b)) as [E|E].
  - apply str_inj in E as ->. now rewrite N.eqb_refl, IH.
  - destruct (N.eqb_spec a b) as [->|]; [congruence|reflexivity].
Qed.
Lemma commonN_lt q : forall prev i, i < commonN q prev <-> (i < length q /\ i < length prev /\ firstn (S i) q = firstn (S i) prev).
Proof.
  induction q as [|a q IH]; intros [|b prev] i; cbn [commonN length]; try lia. destruct (N.eqb_spec a b) as [->|Hn].
  - destruct i as [|i]; [cbn; split; [intros _; repeat split; lia|lia]|]. rewrite <- Nat.succ_lt_mono, IH.
    change (firstn (S (S i)) (b :: q)) with (b :: firstn (S i) q). change (firstn (S (S i)) (b :: prev)) with (b :: firstn (S i) prev).
    split; [intros (H1 & H2 & ->); repeat split; lia|]. intros (H1 & H2 & E). injection E as E. repeat split; try lia; exact E.
  - split; [lia|]. cbn [firstn]. intros (_ & _ & E). congruence.
Qed.
Lemma commonN_le q prev : commonN q prev <= length q /\ commonN q prev <= length prev.
Proof.
  revert prev. induction q as [|a q IH]; intros [|b prev]; cbn [commonN length]; try lia. destruct (a =? b)%N; [|lia]. specialize (IH prev). lia.
Qed.
(** What [count_levels] adds up to for level [i], after the row [prev]. *)
Fixpoint news (prev : list N) (qs : list (list N)) (i : nat) : nat :=
  match qs with
  | [] => 0
  | q :: qs => bit ((commonN q prev <=? i) && (i <? length q)) + news q qs i
  end.
Lemma between n : forall a b c : list N, lex_lt a b -> lex_lt b c -> n <= length a -> n <= length c -> firstn n a = firstn n c -> n <= length b /\ firstn n b = firstn n a.
Proof.
  induction n as [|n IH]; intros a b c Hab Hbc Ha Hc E; [split; [lia|reflexivity]|].
  destruct a as [|x a]; [cbn in Ha; lia|]. destruct c as [|z c]; [cbn in Hc; lia|]. cbn [firstn length] in *. injection E as <- E.
  inversion Hab as [|? y ? ys Hlt|? ? ys Hlt]; subst.
  - inversion Hbc as [|? ? ? ? Hlt2|? ? ? Hlt2]; subst; lia.
  - inversion Hbc as [|? ? ? ? Hlt2|? ? ? Hlt2]; subst; [lia|]. destruct (IH a ys c Hlt Hlt2) as (H1 & H2); try lia; [exact E|]. cbn [length firstn]. rewrite H2. split; [lia|reflexivity].
Qed.
Definition nodes (qs : list (list N)) (i : nat) : nat := length (nodup (list_eq_dec N.eq_dec) (map (firstn (S i)) (filter (fun c => i <? length c) qs))).
Lemma sorted_lt_all a qs : lex_sorted (a :: qs) -> forall b, In b qs -> lex_lt a b.
Proof.
  revert a. induction qs as [|x qs IH]; intros a H b Hb; [destruct Hb|]. destruct H as (H1 & H2). destruct Hb as [<-|Hb]; [exact H1|].
  eapply lex_trans; [exact H1|]. now apply IH.
Qed.
Lemma news_nodes i qs : forall q, lex_sorted (q :: qs) -> news q qs i + bit (i <? length q) = nodes (q :: qs) i.
Proof.
  induction qs as [|q' qs IH]; intros q Hs.
  - cbn [news]. unfold nodes. cbn [filter]. destruct (i <? length q); reflexivity.
  - cbn [news]. assert (Hs' : lex_sorted (q' :: qs)) by exact (proj2 Hs). specialize (IH q' Hs').
    unfold nodes in *. cbn [filter] in *. set (rest := if i <? length q' then q' :: filter (fun c => i <? length c) qs else filter (fun c => i <? length c) qs) in *.
    assert (Hin : i < length q -> (In (firstn (S i) q) (map (firstn (S i)) rest) <-> i < commonN q' q)).
    { intros Hi. rewrite commonN_lt. rewrite in_map_iff. split.
      - intros (c & Ec & Hc). assert (Hc' : In c (q' :: qs) /\ i < length c).
        { assert (Hc2 : In c (filter (fun c => i <? length c) (q' :: qs))) by exact Hc. apply filter_In in Hc2 as (Hc2 & Hl). apply Nat.ltb_lt in Hl. auto. }
        destruct Hc' as ([<-|Hcq] & Hl); [repeat split; assumption|].
        destruct (between (S i) q q' c) as (Hl' & E'); try lia; [exact (sorted_lt_all _ _ Hs q' (or_introl eq_refl))|exact (sorted_lt_all _ _ Hs' c Hcq)|congruence|]. repeat split; [lia|exact Hi|exact E'].
      - intros (Hl & _ & E). exists q'. split; [exact E|]. unfold rest. destruct (Nat.ltb_spec i (length q')); [now left|lia]. }
    destruct (Nat.ltb_spec i (length q)) as [Hi|Hi].
    + cbn [map nodup bit]. destruct (in_dec (list_eq_dec N.eq_dec) (firstn (S i) q) (map (firstn (S i)) rest)) as [Hd|Hd].
      * apply (Hin Hi) in Hd. pose proof (commonN_le q' q). destruct (Nat.leb_spec (commonN q' q) i), (Nat.ltb_spec i (length q')); cbn [andb bit] in *; lia.
      * assert (Hd' : commonN q' q <= i). { destruct (Nat.le_gt_cases (commonN q' q) i) as [|Hgt]; [assumption|]. apply (Hin Hi) in Hgt. contradiction. }
        cbn [length]. destruct (Nat.leb_spec (commonN q' q) i), (Nat.ltb_spec i (length q')); cbn [andb bit] in *; lia.
    + pose proof (commonN_le q' q). destruct (Nat.leb_spec (commonN q' q) i), (Nat.ltb_spec i (length q')); cbn [andb bit] in *; lia.
Qed.
Lemma news_all i qs : lex_sorted qs -> news [] qs i = nodes qs i.
Proof.
  destruct qs as [|q qs]; [reflexivity|]. intros Hs. rewrite <- news_nodes by exact Hs. cbn [news]. destruct q; cbn [commonN]; [cbn; lia|]. cbn [Nat.leb andb]. lia.
Qed.
Lemma lex_terminated a : forall b, Forall (fun x => 0 < x)%N b -> lex_lt a b -> lex_lt (a ++ [0%N]) (b ++ [0%N]).
Proof.
  intros b Hb H. revert Hb. induction H as [y ys|x y xs ys Hlt|x xs ys H IH]; intros Hb; cbn [app].
  - apply lex_head. now inversion Hb.
  - now apply lex_head.
  - apply lex_tail. apply IH. now inversion Hb.
Qed.
Lemma sorted_terminated cs : Forall (Forall (fun x => 0 < x)%N) cs -> lex_sorted cs -> lex_sorted (map (fun c => c ++ [0%N]) cs).
Proof.
  induction cs as [|a cs IH]; intros Hp Hs; [exact I|]. inversion Hp; subst. cbn [map lex_sorted] in *. destruct Hs as (H & Hs). split; [|now apply IH].
  destruct cs as [|b cs]; [exact I|]. cbn [map]. apply lex_terminated; [|exact H]. match goal with X : Forall _ (b :: cs) |- _ => now inversion X end.
Qed.
