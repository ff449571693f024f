(** The blocked inverted index: building, block ids, reading blocks. *)
From Coq Require Import Sorted Permutation.
From Verif Require Import Base P_Heap M_Iter S_Iter P_Intersect P_TopKDistinct M_Parse P_Parse M_Containers S_Containers M_Blocked S_Blocked.
Local Open Scope nat_scope.

Definition memb (d : nat) (l : list nat) : bool := existsb (Nat.eqb d) l.
Lemma memb_true d l : memb d l = true <-> In d l.
Proof.
  unfold memb. rewrite existsb_exists. split; [intros (x & H & E); apply Nat.eqb_eq in E; now subst|].
  intros H. exists d. split; [exact H|apply Nat.eqb_refl].
Qed.

Lemma increasing_nodup l : increasing l -> NoDup l.
Proof.
  intros H. induction H as [|x l H IH Hx]; constructor; [|exact IH]. intros Hin.
  rewrite Forall_forall in Hx. specialize (Hx x Hin). lia.
Qed.
Lemma filter_seq_increasing f s n : increasing (filter f (seq s n)).
Proof.
  assert (H : increasing (seq s n)).
  { revert s. induction n as [|n IH]; intros s; cbn; constructor; [apply IH|]. apply Forall_forall. intros x Hx. apply in_seq in Hx. lia. }
  induction H as [|x l H IH Hx]; cbn; [constructor|]. destruct (f x); [|exact IH]. constructor; [exact IH|].
  apply Forall_forall. intros y Hy. apply filter_In in Hy. rewrite Forall_forall in Hx. now apply Hx.
Qed.
Lemma lt_sorted_increasing l : lt_sorted l -> increasing l.
Proof.
  induction l as [|x l IH]; intros H; [constructor|]. cbn in H. destruct H as [A B]. constructor; [now apply IH|].
  clear IH. revert x A. induction l as [|y l IH]; intros x A; constructor; [exact A|]. cbn in B. destruct B as [B1 B2].
  specialize (IH B2 y B1). eapply Forall_impl; [|exact IH]. cbn. lia.
Qed.

(** ** The builder *)
Lemma add_docs_ok v : forall docs terms, NoDup docs -> Forall (fun d => d < length terms) docs ->
  exists terms', add_docs terms v docs = Ok terms' /\ length terms' = length terms /\
    forall d, d < length terms -> nth d terms' [] = nth d terms [] ++ (if memb d docs then [v] else []).
Proof.
  induction docs as [|x docs IH]; intros terms Hnd Hlt.
  - exists terms. split; [reflexivity|]. split; [reflexivity|]. intros d _. cbn. now rewrite app_nil_r.
  - inversion Hnd as [|? ? Hx Hnd']; subst. inversion Hlt as [|? ? Hl Hlt']; subst. cbn [add_docs].
    destruct (get_some terms x Hl) as (s & Es & Eg). rewrite Eg. cbn [bind]. rewrite set_ok by exact Hl. cbn [bind].
    destruct (IH (upd terms x (s ++ [v])) Hnd') as (terms' & E & L & H).
    { rewrite upd_length. exact Hlt'. }
    exists terms'. split; [exact E|]. rewrite upd_length in *. split; [exact L|]. intros d Hd. rewrite (H d Hd), upd_nth.
    cbn [memb existsb]. fold (memb d docs). apply (nth_error_nth _ _ []) in Es.
    destruct (Nat.eqb_spec x d) as [->|Hn].
    + rewrite Nat.eqb_refl. cbn [orb]. destruct (Nat.ltb_spec d (length terms)); [|lia].
      assert (E0 : memb d docs = false) by (apply not_true_iff_false; rewrite memb_true; exact Hx).
      rewrite E0, app_nil_r. now subst.
    + destruct (Nat.eqb_spec d x); [congruence|]. reflexivity.
Qed.

Lemma take_sets_ok : forall docs terms, NoDup docs -> Forall (fun d => d < length terms) docs ->
  exists terms', take_sets terms docs = Ok (map (fun d => nth d terms []) docs, terms') /\ length terms' = length terms /\
    forall d, d < length terms -> nth d terms' [] = if memb d docs then [] else nth d terms [].
Proof.
  induction docs as [|x docs IH]; intros terms Hnd Hlt.
  - exists terms. auto.
  - inversion Hnd as [|? ? Hx Hnd']; subst. inversion Hlt as [|? ? Hl Hlt']; subst. cbn [take_sets].
    destruct (get_some terms x Hl) as (s & Es & Eg). rewrite Eg. cbn [bind]. rewrite set_ok by exact Hl. cbn [bind].
    destruct (IH (upd terms x []) Hnd') as (terms' & E & L & H).
    { rewrite upd_length. exact Hlt'. }
    rewrite E. cbn [bind]. exists terms'. rewrite upd_length in *. split; [|split; [exact L|]].
    + cbn [map]. do 3 f_equal; [apply (nth_error_nth _ _ []) in Es; now subst|]. apply map_ext_in. intros d Hd. rewrite upd_nth.
      destruct (Nat.eqb_spec x d) as [->|Hn]; [contradiction|reflexivity].
    + intros d Hd. rewrite (H d Hd), upd_nth. cbn [memb existsb]. fold (memb d docs).
      destruct (Nat.eqb_spec x d) as [->|Hn].
      * rewrite Nat.eqb_refl. cbn [orb]. destruct (Nat.ltb_spec d (length terms)); [|lia]. now destruct (memb d docs).
      * destruct (Nat.eqb_spec d x); [congruence|]. reflexivity.
Qed.

Lemma increasing_nth_lt l i j : increasing l -> i < j < length l -> nth i l 0 < nth j l 0.
Proof.
  intros H. revert i j. induction H as [|x l H IH Hx]; intros i j Hij; [cbn in Hij; lia|].
  destruct j as [|j]; [lia|]. cbn in Hij. destruct i as [|i]; cbn.
  - rewrite Forall_forall in Hx. apply Hx, nth_In. lia.
  - apply IH. lia.
Qed.

Lemma concat_nonempty {A} (ls : list (list A)) l : In l ls -> l <> [] -> length (concat ls) <> 0.
Proof.
  intros Hin Hl H0. apply in_split in Hin. destruct Hin as (l1 & l2 & ->). rewrite concat_app in H0. cbn in H0.
  rewrite !app_length in H0. destruct l; [congruence|]. cbn in H0. lia.
Qed.

Section Build.
  Variable u : nat.
  Variable P : list (list nat).
  Hypothesis HP : Forall (fun l => l <> [] /\ increasing l /\ Forall (fun x => x < u) l) P.
  Let T := length P.

  (** The terms of document [d] from [s] to [e]. *)
  Definition set_of (d s e : nat) : list nat := filter (fun t => memb d (nth (t - 1) P [])) (seq s (e + 1 - s)).

  Lemma in_set_of d s e t : In t (set_of d s e) <-> s <= t <= e /\ has_term P d t.
  Proof. unfold set_of, has_term. rewrite filter_In, memb_true, in_seq. intuition lia. Qed.

  Lemma set_of_snoc d s t : 1 <= t -> s <= t ->
    set_of d s t = set_of d s (t - 1) ++ (if memb d (nth (t - 1) P []) then [t] else []).
  Proof.
    intros H1 H2. unfold set_of. replace (t + 1 - s) with ((t - s) + 1) by lia. replace (t - 1 + 1 - s) with (t - s) by lia.
    rewrite seq_app, filter_app. cbn [seq filter]. replace (s + (t - s)) with t by lia. reflexivity.
  Qed.

  Definition blk_spec (s low : nat) (B : blk) : Prop :=
    increasing (blk_docs B) /\ (forall d, In d (blk_docs B) <-> exists t, s <= t <= blk_bound B /\ has_term P d t) /\
    blk_sets B = map (fun d => map (fun t => t - low) (set_of d s (blk_bound B))) (blk_docs B) /\ low <= s.

  Fixpoint blks (s low : nat) (bs : list blk) : Prop :=
    match bs with
    | [] => s = T + 1
    | B :: bs' => s <= blk_bound B <= T /\ blk_spec s low B /\ blks (blk_bound B + 1) (blk_bound B) bs'
    end.

  Lemma split_blocks_ok m : forall lists t low cnt un terms s,
    lists = skipn (t - 1) P -> 1 <= s -> s <= t -> t <= T + 1 -> low <= s -> (lists = [] -> s = t) ->
    (forall d, In d un <-> exists t', s <= t' < t /\ has_term P d t') ->
    length terms = u -> (forall d, d < u -> nth d terms [] = map (fun x => x - low) (set_of d s (t - 1))) ->
    exists bs, split_blocks m lists t low cnt un terms = Ok bs /\ blks s low bs.
  Proof.
    induction lists as [|l lists IH]; intros t low cnt un terms s El Hs1 Hst HtT Hlow Hnil Hun Hlen Hterms.
    - exists []. split; [reflexivity|]. cbn [blks]. rewrite (Hnil eq_refl).
      assert (length (skipn (t - 1) P) = 0) by (now rewrite <- El). rewrite skipn_length in H. unfold T. lia.
    - cbn [split_blocks].
      assert (Hl : t - 1 < length P /\ nth (t - 1) P [] = l /\ lists = skipn (t + 1 - 1) P).
      { assert (Hlt : t - 1 < length P).
        { destruct (Nat.lt_ge_cases (t - 1) (length P)) as [|Hge]; [assumption|]. rewrite skipn_all2 in El by lia. discriminate. }
        split; [exact Hlt|]. revert El Hlt. replace (t + 1 - 1) with (S (t - 1)) by lia. generalize (t - 1). clear. intros n. revert n.
        induction P as [|x P' IH]; intros n E H; [cbn in H; lia|]. destruct n as [|n]; cbn in *; [now injection E as <- <-|].
        apply IH; [exact E|lia]. }
      destruct Hl as (Hlt & Hnth & Hlists).
      assert (Hwl : l <> [] /\ increasing l /\ Forall (fun x => x < u) l).
      { rewrite Forall_forall in HP. apply HP. rewrite <- Hnth. now apply nth_In. }
      destruct Hwl as (Hlne & Hlinc & Hllt).
      destruct (add_docs_ok (t - low) l terms (increasing_nodup l Hlinc)) as (terms1 & Ea & L1 & H1).
      { now rewrite Hlen. }
      rewrite Ea. cbn [bind].
      assert (Hun' : forall d, In d (un ++ l) <-> exists t', s <= t' < t + 1 /\ has_term P d t').
      { intros d. rewrite in_app_iff, Hun. split.
        - intros [(t' & A & B)|H]; [exists t'; split; [lia|exact B]|]. exists t. split; [lia|]. unfold has_term. now rewrite Hnth.
        - intros (t' & A & B). destruct (Nat.eq_dec t' t) as [->|Hn]; [right; unfold has_term in B; now rewrite Hnth in B|].
          left. exists t'. split; [lia|exact B]. }
      assert (Hterms' : forall d, d < u -> nth d terms1 [] = map (fun x => x - low) (set_of d s t)).
      { intros d Hd. rewrite H1 by lia. rewrite (Hterms d Hd), (set_of_snoc d s t) by lia. rewrite map_app, Hnth.
        now destruct (memb d l). }
      destruct ((m <=? cnt + length l) || match lists with [] => true | _ => false end) eqn:Eflush.
      + destruct (deduplicate_ok (un ++ l)) as [Hds Hdi]. apply lt_sorted_increasing in Hds.
        set (docs := deduplicate (un ++ l)) in *.
        assert (Hdu : Forall (fun d => d < length terms1) docs).
        { apply Forall_forall. intros d Hd. apply Hdi, Hun' in Hd. destruct Hd as (t' & A & B). rewrite L1, Hlen.
          unfold has_term in B. rewrite Forall_forall in HP.
          destruct (Nat.lt_ge_cases (t' - 1) (length P)) as [Hx|Hx]; [|rewrite nth_overflow in B by lia; destruct B].
          destruct (HP _ (nth_In P [] Hx)) as (_ & _ & C). rewrite Forall_forall in C. now apply C. }
        destruct (take_sets_ok docs terms1 (increasing_nodup docs Hds) Hdu) as (terms2 & Et & L2 & H2).
        rewrite Et. cbn [bind].
        assert (Hsets : map (fun d => nth d terms1 []) docs = map (fun d => map (fun x => x - low) (set_of d s t)) docs).
        { apply map_ext_in. intros d Hd. apply Hterms'. rewrite Forall_forall in Hdu. specialize (Hdu d Hd). lia. }
        rewrite Hsets.
        assert (Hne : length (concat (map (fun d => map (fun x => x - low) (set_of d s t)) docs)) <> 0).
        { destruct l as [|d l']; [congruence|]. assert (Hd : In d docs) by (apply Hdi; apply in_or_app; right; now left).
          apply (concat_nonempty _ (map (fun x => x - low) (set_of d s t))).
          - now apply in_map with (f := fun d => map (fun x => x - low) (set_of d s t)).
          - assert (Ht : In t (set_of d s t)).
            { apply in_set_of. split; [lia|]. unfold has_term. rewrite Hnth. now left. }
            destruct (set_of d s t); [destruct Ht|discriminate]. }
        destruct (Nat.eqb_spec (length (concat (map (fun d => map (fun x => x - low) (set_of d s t)) docs))) 0) as [|_]; [contradiction|].
        destruct (IH (t + 1) t 0 [] terms2 (t + 1)) as (rest & Er & Hr); auto; try lia.
        * intros d. split; [intros []|intros (t' & A & _); lia].
        * intros d Hd. rewrite H2 by lia. replace (t + 1 - 1) with t by lia.
          assert (E0 : set_of d (t + 1) t = []) by (unfold set_of; now rewrite Nat.sub_diag). rewrite E0. cbn [map].
          destruct (memb d docs) eqn:Em; [reflexivity|]. rewrite (Hterms' d Hd).
          destruct (set_of d s t) as [|t' r] eqn:Es; [reflexivity|]. exfalso.
          assert (Hin : In t' (set_of d s t)) by (rewrite Es; now left). apply in_set_of in Hin. destruct Hin as [A B].
          apply not_true_iff_false in Em. apply Em, memb_true, Hdi, Hun'. exists t'. split; [lia|exact B].
        * rewrite Er. cbn [bind]. eexists. split; [reflexivity|]. cbn [blks blk_bound]. split; [unfold T; lia|].
          split; [|exact Hr]. split; [exact Hds|]. cbn [blk_docs blk_bound blk_sets]. split; [|auto].
          intros d. rewrite Hdi, Hun'. split; intros (t' & A & B); exists t'; (split; [lia|exact B]).
      + apply orb_false_iff in Eflush. destruct Eflush as [_ Enl].
        apply (IH (t + 1) low (cnt + length l) (un ++ l) terms1 s); auto; try lia.
        * intros ->. discriminate.
        * intros d Hd. replace (t + 1 - 1) with t by lia. now apply Hterms'.
  Qed.

  (** Positions of the blocks. *)
  Definition start_of (s : nat) (bounds : list nat) (i : nat) : nat := if i =? 0 then s else nth (i - 1) bounds 0 + 1.
  Definition low_of (low : nat) (bounds : list nat) (i : nat) : nat := if i =? 0 then low else nth (i - 1) bounds 0.

  Lemma blks_nth : forall bs s low i B, blks s low bs -> nth_error bs i = Some B ->
    let bounds := map blk_bound bs in
    s <= start_of s bounds i <= blk_bound B /\ blk_bound B <= T /\ blk_spec (start_of s bounds i) (low_of low bounds i) B.
  Proof.
    induction bs as [|B0 bs IH]; intros s low i B H Hi; [destruct i; discriminate|]. cbn [blks] in H. destruct H as (H1 & H2 & H3).
    destruct i as [|i].
    - cbn in Hi. injection Hi as <-. cbn. repeat split; try lia; apply H2.
    - cbn in Hi. destruct (IH _ _ i B H3 Hi) as (A & C & D). cbv zeta. unfold start_of, low_of in *. cbn [Nat.eqb map].
      replace (S i - 1) with i by lia. destruct i as [|i].
      + cbn [Nat.eqb nth] in *. split; [lia|]. split; [lia|]. exact D.
      + cbn [Nat.eqb] in A, D. replace (S i - 1) with i in A, D by lia. cbn [nth]. split; [lia|]. split; [lia|]. exact D.
  Qed.

  Definition block_id0 (bounds : list nat) (t : nat) : nat :=
    let id := upper_bound bounds t in
    if (0 <? id) && (nth (id - 1) bounds 0 =? t) then id - 1 else id.

  Lemma upper_bound_low bs s low t : blks s low bs -> t < s -> upper_bound (map blk_bound bs) t = 0.
  Proof.
    destruct bs as [|B bs]; [reflexivity|]. cbn [blks map upper_bound]. intros (H & _) Ht.
    destruct (Nat.ltb_spec t (blk_bound B)); [reflexivity|lia].
  Qed.

  Lemma block_id_ok : forall bs s low t, blks s low bs -> s <= t <= T ->
    exists B, nth_error bs (block_id0 (map blk_bound bs) t) = Some B /\
      start_of s (map blk_bound bs) (block_id0 (map blk_bound bs) t) <= t <= blk_bound B.
  Proof.
    induction bs as [|B0 bs IH]; intros s low t H Ht; cbn [blks] in H; [lia|]. destruct H as (H1 & H2 & H3).
    destruct (Nat.lt_ge_cases t (blk_bound B0)) as [Hlt|Hge].
    { unfold block_id0. cbn [map upper_bound]. destruct (Nat.ltb_spec t (blk_bound B0)); [|lia]. exists B0. cbn. split; [reflexivity|lia]. }
    destruct (Nat.eq_dec t (blk_bound B0)) as [->|Hne].
    { unfold block_id0. cbn [map upper_bound]. rewrite Nat.ltb_irrefl. rewrite (upper_bound_low bs (blk_bound B0 + 1) (blk_bound B0)) by (auto; lia).
      cbn. rewrite Nat.eqb_refl. exists B0. cbn. split; [reflexivity|lia]. }
    destruct (IH _ _ t H3 ltac:(lia)) as (B & Hn & Hst).
    assert (E : block_id0 (map blk_bound (B0 :: bs)) t = S (block_id0 (map blk_bound bs) t)).
    { unfold block_id0. cbn [map upper_bound]. destruct (Nat.ltb_spec t (blk_bound B0)); [lia|].
      replace (S (upper_bound (map blk_bound bs) t) - 1) with (upper_bound (map blk_bound bs) t) by lia.
      destruct (upper_bound (map blk_bound bs) t) as [|j]; cbn [Nat.ltb Nat.leb andb].
      - cbn. destruct (Nat.eqb_spec (blk_bound B0) t); [lia|reflexivity].
      - cbn [nth]. replace (S j - 1) with j by lia. destruct (nth j (map blk_bound bs) 0 =? t); reflexivity. }
    rewrite E. exists B. split; [exact Hn|]. unfold start_of in *. cbn [Nat.eqb map]. replace (S (block_id0 (map blk_bound bs) t) - 1) with (block_id0 (map blk_bound bs) t) by lia.
    destruct (block_id0 (map blk_bound bs) t) as [|j]; cbn [Nat.eqb nth] in *; [lia|]. replace (S j - 1) with j in Hst by lia. lia.
  Qed.

  Lemma bounds_increasing : forall bs s low, blks s low bs -> increasing (map blk_bound bs) /\ Forall (fun b => s <= b) (map blk_bound bs).
  Proof.
    induction bs as [|B bs IH]; intros s low H; [split; constructor|]. cbn [blks] in H. destruct H as (H1 & _ & H3).
    destruct (IH _ _ H3) as [A C]. cbn. split.
    - constructor; [exact A|]. eapply Forall_impl; [|exact C]. cbn. lia.
    - constructor; [lia|]. eapply Forall_impl; [|exact C]. cbn. lia.
  Qed.

  (** [block_id0] is the only block containing the term. *)
  Lemma block_id_unique bs low t i : blks 1 low bs -> 1 <= t <= T -> in_block (map blk_bound bs) i t -> block_id0 (map blk_bound bs) t = i.
  Proof.
    intros H Ht (Hi & Hti & Hpi). destruct (block_id_ok bs 1 low t H Ht) as (B & Hn & Hst).
    destruct (bounds_increasing bs 1 low H) as [Hinc _]. set (bounds := map blk_bound bs) in *. set (j := block_id0 bounds t) in *.
    assert (Hj : j < length bounds) by (unfold bounds; rewrite map_length; apply nth_error_Some; congruence).
    assert (Hbj : nth j bounds 0 = blk_bound B) by (unfold bounds; apply nth_error_nth; rewrite nth_error_map, Hn; reflexivity).
    destruct (Nat.lt_trichotomy j i) as [L|[E|L]]; [exfalso|exact E|exfalso].
    - assert (0 < i) by lia. specialize (Hpi H0). destruct (Nat.eq_dec j (i - 1)) as [->|Hne]; [lia|].
      pose proof (increasing_nth_lt bounds j (i - 1) Hinc ltac:(lia)). lia.
    - unfold start_of in Hst. destruct (Nat.eqb_spec j 0); [lia|]. destruct (Nat.eq_dec i (j - 1)) as [->|Hne]; [lia|].
      pose proof (increasing_nth_lt bounds i (j - 1) Hinc ltac:(lia)). lia.
  Qed.
  Lemma block_id_in bs low t : blks 1 low bs -> 1 <= t <= T -> in_block (map blk_bound bs) (block_id0 (map blk_bound bs) t) t.
  Proof.
    intros H Ht. destruct (block_id_ok bs 1 low t H Ht) as (B & Hn & Hst). unfold start_of in Hst.
    set (bounds := map blk_bound bs) in *. set (j := block_id0 bounds t) in *.
    split; [unfold bounds; rewrite map_length; apply nth_error_Some; congruence|].
    assert (Hbj : nth j bounds 0 = blk_bound B) by (unfold bounds; apply nth_error_nth; rewrite nth_error_map, Hn; reflexivity).
    split; [lia|]. intros Hj. destruct (Nat.eqb_spec j 0); lia.
  Qed.
  Lemma same_block_id bs low t1 t2 : blks 1 low bs -> 1 <= t1 <= t2 -> t2 <= T -> same_block (map blk_bound bs) t1 t2 ->
    block_id0 (map blk_bound bs) t1 = block_id0 (map blk_bound bs) t2.
  Proof.
    intros H H1 H2 Hs. symmetry. apply (block_id_unique bs low t2 _ H ltac:(lia)).
    destruct (block_id_in bs low t1 H ltac:(lia)) as (A & B & C). split; [exact A|]. split; [|intros Hj; specialize (C Hj); lia].
    split; [lia|]. destruct (Nat.le_gt_cases t2 (nth (block_id0 (map blk_bound bs) t1) (map blk_bound bs) 0)) as [|Hg]; [assumption|].
    exfalso. apply (Hs (nth (block_id0 (map blk_bound bs) t1) (map blk_bound bs) 0)); [now apply nth_In|lia].
  Qed.
End Build.
