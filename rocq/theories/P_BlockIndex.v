(** The blocked inverted index: from the built index to blocks and intersections. *)
From Coq Require Import Sorted Permutation.
From Verif Require Import Base P_Heap M_Iter S_Iter M_Intersect S_Intersect P_Intersect P_TopKDistinct M_Containers S_Containers M_Blocked S_Blocked P_Blocked P_BlockView.
Local Open Scope nat_scope.

(** * Offsets and concatenations *)
Lemma offsets_from_length : forall sets o, length (offsets_from o sets) = S (length sets).
Proof. induction sets as [|s sets IH]; intros o; [reflexivity|]. cbn. now rewrite IH. Qed.
Lemma offsets_from_nth : forall sets o q, q <= length sets -> nth q (offsets_from o sets) 0 = o + length (concat (firstn q sets)).
Proof.
  induction sets as [|s sets IH]; intros o q Hq; [cbn in Hq; replace q with 0 by lia; cbn; lia|].
  destruct q as [|q]; [cbn; lia|]. cbn [offsets_from nth firstn concat]. rewrite IH by (cbn in Hq; lia). rewrite app_length. lia.
Qed.
Lemma offsets_from_ok : forall sets o, Forall (fun s => s <> []) sets ->
  increasing (offsets_from o sets) /\ Forall (fun x => o <= x <= o + length (concat sets)) (offsets_from o sets).
Proof.
  induction sets as [|s sets IH]; intros o H; [split; [repeat constructor|constructor; [cbn; lia|constructor]]|].
  inversion H as [|? ? Hs Hr]; subst. destruct (IH (o + length s) Hr) as [A B]. cbn [offsets_from concat]. rewrite app_length.
  assert (0 < length s) by (destruct s; [congruence|cbn; lia]). split.
  - constructor; [exact A|]. eapply Forall_impl; [|exact B]. cbn. lia.
  - constructor; [lia|]. eapply Forall_impl; [|exact B]. cbn. lia.
Qed.
Lemma concat_nth : forall (ls : list (list nat)) q j, q < length ls -> j < length (nth q ls []) ->
  length (concat (firstn q ls)) + j < length (concat ls) /\ nth (length (concat (firstn q ls)) + j) (concat ls) 0 = nth j (nth q ls []) 0.
Proof.
  induction ls as [|l ls IH]; intros q j Hq Hj; [cbn in Hq; lia|]. destruct q as [|q].
  - cbn in *. rewrite app_length, app_nth1 by exact Hj. split; [lia|reflexivity].
  - cbn [firstn concat nth length] in *. destruct (IH q j ltac:(lia) Hj) as [A B]. rewrite !app_length. split; [lia|].
    rewrite app_nth2 by lia. replace (length l + length (concat (firstn q ls)) + j - length l) with (length (concat (firstn q ls)) + j) by lia. exact B.
Qed.

(** Counting postings. *)
Lemma count_memb : forall l docs, NoDup docs -> length (filter (fun d => memb d l) docs) <= length l.
Proof.
  intros l docs H. apply NoDup_incl_length; [now apply NoDup_filter|]. intros d Hd. apply filter_In in Hd. now apply memb_true.
Qed.
Lemma sets_total P docs : NoDup docs -> forall n s, 1 <= s ->
  length (concat (map (fun d => set_of P d s (s + n - 1)) docs)) <= length (concat (firstn n (skipn (s - 1) P))).
Proof.
  intros Hnd. induction n as [|n IH]; intros s Hs.
  - assert (E : forall l, concat (map (fun d => set_of P d s (s + 0 - 1)) l) = []).
    { induction l as [|d l IHl]; [reflexivity|]. cbn. rewrite IHl, app_nil_r. unfold set_of. now replace (s + 0 - 1 + 1 - s) with 0 by lia. }
    rewrite E. cbn. lia.
  - assert (E : forall l, length (concat (map (fun d => set_of P d s (s + S n - 1)) l)) =
       length (filter (fun d => memb d (nth (s - 1) P [])) l) + length (concat (map (fun d => set_of P d (s + 1) (s + 1 + n - 1)) l))).
    { induction l as [|d l IHl]; [reflexivity|]. cbn [map concat filter]. rewrite !app_length, IHl.
      assert (Es : set_of P d s (s + S n - 1) = (if memb d (nth (s - 1) P []) then [s] else []) ++ set_of P d (s + 1) (s + 1 + n - 1)).
      { unfold set_of. replace (s + S n - 1 + 1 - s) with (S n) by lia. replace (s + 1 + n - 1 + 1 - (s + 1)) with n by lia.
        cbn [seq filter]. replace (S s) with (s + 1) by lia. now destruct (memb d (nth (s - 1) P [])). }
      rewrite Es, app_length. destruct (memb d (nth (s - 1) P [])); cbn [length]; lia. }
    rewrite E. specialize (IH (s + 1) ltac:(lia)). replace (s + 1 - 1) with (S (s - 1)) in IH by lia.
    pose proof (count_memb (nth (s - 1) P []) docs Hnd).
    destruct (Nat.lt_ge_cases (s - 1) (length P)) as [L|L].
    + assert (Ep : skipn (s - 1) P = nth (s - 1) P [] :: skipn (S (s - 1)) P).
      { clear -L. revert L. generalize (s - 1) as i. induction P as [|x P' IHP]; intros i L; [cbn in L; lia|].
        destruct i as [|i]; [reflexivity|]. cbn [skipn nth]. cbn in L. rewrite IHP by lia. reflexivity. }
      rewrite Ep. cbn [firstn concat]. rewrite app_length. lia.
    + assert (E0 : nth (s - 1) P [] = []) by (apply nth_overflow; lia). rewrite E0 in *. rewrite skipn_all2 in IH |- * by lia. rewrite firstn_nil in IH |- *. cbn in *. lia.
Qed.
Lemma concat_sub (P : list (list nat)) n i : length (concat (firstn n (skipn i P))) <= length (concat P).
Proof.
  rewrite <- (firstn_skipn i P) at 2. rewrite concat_app, app_length. rewrite <- (firstn_skipn n (skipn i P)) at 2.
  rewrite concat_app, app_length. lia.
Qed.
Lemma concat_map_map (f : nat -> nat) (g : nat -> list nat) docs : concat (map (fun d => map f (g d)) docs) = map f (concat (map g docs)).
Proof. induction docs as [|d docs IH]; [reflexivity|]. cbn. now rewrite map_app, IH. Qed.

Section Index.
  Variable K : bcontainers.
  Hypothesis HK : bcontainers_ok K.
  Variable u : nat.
  Hypothesis Hu : (N.of_nat u < 4294967296)%N.
  Variable P : list (list nat).
  Hypothesis HPne : P <> [].
  Hypothesis HP : Forall (fun l => l <> [] /\ increasing l /\ Forall (fun x => x < u) l) P.
  Hypothesis Hfew : (N.of_nat (length (concat P)) < 4294967295)%N.

  Definition start_i (bs : list blk) (i : nat) : nat := start_of 1 (map blk_bound bs) i.

  Record bi_ok (ii : bindex K) (bs : list blk) (at_ : k_It K -> list nat -> nat -> Prop) : Prop := {
    bo_u : bi_docs_num K ii = u;
    bo_blks : blks P 1 1 bs;
    bo_bounds : bi_bounds K ii = map blk_bound bs;
    bo_cursor : cursor (k_ops K u) u at_;
    bo_pos : forall it l p, at_ it l p -> b_position K it = p;
    bo_lists : opens at_ (bi_lists K ii) (map blk_docs bs);
    bo_offsets : forall b l, nth_error (map (fun B => offsets_from 0 (blk_sets B)) bs) b = Some l ->
      exists acc, bi_offsets K ii b = Ok acc /\ forall i, i < length l -> acc i = Ok (nth i l 0);
    bo_terms : forall b l, nth_error (map (fun B => concat (blk_sets B)) bs) b = Some l ->
      exists acc, bi_terms K ii b = Ok acc /\ forall i, i < length l -> acc i = Ok (nth i l 0)
  }.

  Lemma T_few : length P <= length (concat P).
  Proof.
    clear -HP. induction HP as [|l P' (Hl & _) HF IH]; [cbn; lia|]. cbn. rewrite app_length. destruct l; [congruence|]. cbn. specialize (IH HF). lia.
  Qed.

  Lemma blk_facts bs i B : blks P 1 1 bs -> nth_error bs i = Some B ->
    blk_docs B <> [] /\ increasing (blk_docs B) /\ Forall (fun d => d < u) (blk_docs B) /\
    Forall (fun s => s <> []) (blk_sets B) /\ length (concat (blk_sets B)) <= length (concat P) /\
    concat (blk_sets B) <> [] /\ Forall (fun x => x <= length P) (concat (blk_sets B)).
  Proof.
    intros Hb Hi. destruct (blks_nth P bs 1 1 i B Hb Hi) as (H1 & H2 & Hinc & Hin & Hsets & Hlow).
    set (s := start_of 1 (map blk_bound bs) i) in *. set (low := low_of 1 (map blk_bound bs) i) in *.
    assert (Hex : exists d, In d (nth (blk_bound B - 1) P []) /\ d < u).
    { rewrite Forall_forall in HP. assert (Hlt : blk_bound B - 1 < length P) by lia.
      destruct (HP _ (nth_In P [] Hlt)) as (A & _ & C). destruct (nth (blk_bound B - 1) P []) as [|d l] eqn:E; [congruence|].
      exists d. split; [now left|]. now inversion C. }
    destruct Hex as (d0 & Hd0 & _).
    assert (Hd0' : In d0 (blk_docs B)) by (apply Hin; exists (blk_bound B); split; [lia|exact Hd0]).
    assert (Hsne : Forall (fun s => s <> []) (blk_sets B)).
    { rewrite Hsets. apply Forall_map, Forall_forall. intros d Hd. apply Hin in Hd. destruct Hd as (t & Ht & Hh).
      assert (Hti : In t (set_of P d s (blk_bound B))) by (apply in_set_of; auto).
      destruct (set_of P d s (blk_bound B)); [destruct Hti|discriminate]. }
    split; [intros E; rewrite E in Hd0'; destruct Hd0'|]. split; [exact Hinc|]. split; [|split; [exact Hsne|split; [|split]]].
    - apply Forall_forall. intros d Hd. apply Hin in Hd. destruct Hd as (t & Ht & Hh). unfold has_term in Hh. rewrite Forall_forall in HP.
      assert (Hlt : t - 1 < length P) by lia. destruct (HP _ (nth_In P [] Hlt)) as (_ & _ & C). rewrite Forall_forall in C. now apply C.
    - rewrite Hsets, concat_map_map, map_length.
      pose proof (sets_total P (blk_docs B) (increasing_nodup _ Hinc) (blk_bound B + 1 - s) s ltac:(lia)) as Ht.
      replace (s + (blk_bound B + 1 - s) - 1) with (blk_bound B) in Ht by lia.
      pose proof (concat_sub P (blk_bound B + 1 - s) (s - 1)). lia.
    - rewrite Hsets in *. intros E. destruct (blk_docs B) as [|d l]; [destruct Hd0'|]. cbn in E. apply app_eq_nil in E. destruct E as [E _].
      inversion Hsne; subst. contradiction.
    - rewrite Hsets, concat_map_map. apply Forall_map, Forall_forall. intros t Ht. apply in_concat in Ht. destruct Ht as (l & Hl & Ht).
      apply in_map_iff in Hl. destruct Hl as (d & <- & _). apply in_set_of in Ht. lia.
  Qed.

  Lemma blks_total bs : forall s low, 1 <= s -> blks P s low bs ->
    length (concat (map (fun b => concat (blk_sets b)) bs)) <= length (concat (skipn (s - 1) P)).
  Proof.
    induction bs as [|B bs IH]; intros s low Hs Hb; cbn [map concat]; [cbn; lia|]. cbn [blks] in Hb. destruct Hb as (Hr & (Hinc & Hin & Hsets & _) & Hb).
    rewrite app_length. specialize (IH (blk_bound B + 1) (blk_bound B) ltac:(lia) Hb). replace (blk_bound B + 1 - 1) with (blk_bound B) in IH by lia.
    assert (Ht : length (concat (blk_sets B)) <= length (concat (firstn (blk_bound B + 1 - s) (skipn (s - 1) P)))).
    { rewrite Hsets, concat_map_map, map_length.
      pose proof (sets_total P (blk_docs B) (increasing_nodup _ Hinc) (blk_bound B + 1 - s) s ltac:(lia)) as Ht.
      replace (s + (blk_bound B + 1 - s) - 1) with (blk_bound B) in Ht by lia. exact Ht. }
    rewrite <- (firstn_skipn (blk_bound B + 1 - s) (skipn (s - 1) P)), concat_app, app_length.
    assert (E : skipn (blk_bound B + 1 - s) (skipn (s - 1) P) = skipn (blk_bound B) P).
    { rewrite skipn_skipn. f_equal. lia. }
    rewrite E. lia.
  Qed.
  Lemma lists_few {A B} (f : blk -> list A) (g : blk -> list B) bs k : (forall x, In x bs -> length (f x) <= k * length (g x)) ->
    length (concat (map f bs)) <= k * length (concat (map g bs)).
  Proof.
    induction bs as [|x bs IH]; intros H; cbn [map concat length]; [lia|]. rewrite !app_length. pose proof (H x (or_introl eq_refl)).
    specialize (IH (fun y Hy => H y (or_intror Hy))). lia.
  Qed.

  Lemma bi_build_ok m : exists ii bs at_, bi_build K m u P = Ok ii /\ bi_ok ii bs at_.
  Proof.
    unfold bi_build.
    destruct (split_blocks_ok u P HP m P 1 1 0 [] (repeat [] u) 1) as (bs & Eb & Hb); auto; try lia.
    - intros d. split; [intros []|intros (t & A & _); lia].
    - apply repeat_length.
    - intros d Hd. rewrite nth_repeat. unfold set_of. reflexivity.
    - rewrite Eb. cbn [bind].
      assert (Hne : forall A (f : blk -> A), map f bs <> []).
      { intros A f E. apply map_eq_nil in E. subst. cbn in Hb. destruct P; [congruence|]. cbn in Hb. lia. }
      assert (Hall : forall B, In B bs -> exists i, nth_error bs i = Some B) by (intros B HB; now apply In_nth_error in HB).
      assert (Hsz : forall B, In B bs -> length (blk_docs B) = length (blk_sets B) /\ 1 <= length (concat (blk_sets B)) /\ length (blk_sets B) <= length (concat (blk_sets B))).
      { intros B HB. destruct (Hall B HB) as (i & Hi). destruct (blk_facts bs i B Hb Hi) as (A1 & A2 & A3 & A4 & A5 & A6 & _).
        destruct (blks_nth P bs 1 1 i B Hb Hi) as (_ & _ & _ & _ & Hsets & _). split; [now rewrite Hsets, map_length|].
        split; [destruct (concat (blk_sets B)); [congruence|cbn; lia]|]. clear -A4. induction A4 as [|s l Hs Hl IH]; [cbn; lia|]. cbn [concat length]. rewrite app_length. destruct s; [congruence|]. cbn. lia. }
      pose proof (blks_total bs 1 1 ltac:(lia) Hb) as Htot. cbn [Nat.sub skipn] in Htot.
      destruct (okb_lists K HK u (map blk_docs bs) Hu (Hne _ _)) as (it & at_ & E1 & Hc & Ho & Hp).
      { apply Forall_map, Forall_forall. intros B HB. destruct (Hall B HB) as (i & Hi).
        destruct (blk_facts bs i B Hb Hi) as (A1 & A2 & A3 & _). auto. }
      { pose proof (lists_few blk_docs (fun b => concat (blk_sets b)) bs 1) as Hlf.
        assert (length (concat (map blk_docs bs)) <= 1 * length (concat (map (fun b => concat (blk_sets b)) bs))) by (apply Hlf; intros B HB; destruct (Hsz B HB); lia). lia. }
      rewrite E1. cbn [bind].
      destruct (okb_offsets K HK (map (fun b => offsets_from 0 (blk_sets b)) bs) (Hne _ _)) as (fo & E2 & Hfo).
      { apply Forall_map, Forall_forall. intros B HB. destruct (Hall B HB) as (i & Hi).
        destruct (blk_facts bs i B Hb Hi) as (A1 & A2 & A3 & A4 & A5 & _). destruct (offsets_from_ok (blk_sets B) 0 A4) as [I1 I2].
        split; [destruct (blk_sets B); discriminate|]. split; [exact I1|]. eapply Forall_impl; [|exact I2]. cbn. intros x Hx. lia. }
      { pose proof (lists_few (fun b => offsets_from 0 (blk_sets b)) (fun b => concat (blk_sets b)) bs 2) as Hlf.
        assert (Ho2 : forall l o, length (offsets_from o l) = length l + 1) by (clear; induction l as [|s l IH]; intros o; cbn; [reflexivity|now rewrite IH]).
        assert (length (concat (map (fun b => offsets_from 0 (blk_sets b)) bs)) <= 2 * length (concat (map (fun b => concat (blk_sets b)) bs))) by (apply Hlf; intros B HB; rewrite Ho2; destruct (Hsz B HB); lia). lia. }
      rewrite E2. cbn [bind].
      destruct (okb_terms K HK (map (fun b => concat (blk_sets b)) bs) (Hne _ _)) as (ft & E3 & Hft).
      { apply Forall_map, Forall_forall. intros B HB. destruct (Hall B HB) as (i & Hi).
        destruct (blk_facts bs i B Hb Hi) as (A1 & A2 & A3 & A4 & A5 & A6 & A7). split; [exact A6|].
        eapply Forall_impl; [|exact A7]. cbn. intros x Hx. pose proof T_few. lia. }
      { lia. }
      rewrite E3. cbn [bind]. eexists. exists bs, at_. split; [reflexivity|]. constructor; cbn; auto.
  Qed.

  Variable ii : bindex K.
  Variable bs : list blk.
  Variable at_ : k_It K -> list nat -> nat -> Prop.
  Hypothesis Hok : bi_ok ii bs at_.
  Let bounds := map blk_bound bs.
  Definition bid (t : nat) : nat := block_id0 (map blk_bound bs) t.

  Lemma block_id_eq t : block_id K ii t = bid t.
  Proof. unfold block_id, bid, block_id0. now rewrite (bo_bounds _ _ _ Hok). Qed.

  Definition docs_at (i : nat) : list nat := nth i (map blk_docs bs) [].
  Definition view_of (i : nat) (ids : list nat) : view :=
    {| v_docs := docs_at i; v_set := fun d => set_of P d (start_i bs i) (nth i (map blk_bound bs) 0); v_ids := ids |}.

  Lemma open_block_ok i ids : i < length bs -> increasing ids ->
    exists b, open_block K ii i ids = Ok b /\ at_block K at_ b (view_of i ids) 0.
  Proof.
    intros Hi Hids. destruct (get_some bs i Hi) as (B & EB & _). unfold open_block.
    destruct (blks_nth P bs 1 1 i B (bo_blks _ _ _ Hok) EB) as (H1 & H2 & Hinc & Hin & Hsets & Hlow).
    assert (Elow : (if 0 <? i then get (bi_bounds K ii) (i - 1) else Ok 1) = Ok (low_of 1 (map blk_bound bs) i)).
    { unfold low_of. rewrite (bo_bounds _ _ _ Hok). destruct i as [|i]; [reflexivity|]. cbn [Nat.ltb Nat.leb Nat.eqb].
      apply get_nth. rewrite map_length. lia. }
    rewrite Elow. cbn [bind].
    destruct (bo_lists _ _ _ Hok i (blk_docs B)) as (it & Eit & Hat); [now rewrite nth_error_map, EB|]. rewrite Eit. cbn [bind].
    destruct (bo_offsets _ _ _ Hok i (offsets_from 0 (blk_sets B))) as (off & Eo & Hoff); [now rewrite nth_error_map, EB|]. rewrite Eo. cbn [bind].
    destruct (bo_terms _ _ _ Hok i (concat (blk_sets B))) as (trm & Et & Htrm); [now rewrite nth_error_map, EB|]. rewrite Et. cbn [bind].
    eexists. split; [reflexivity|].
    assert (Ed : docs_at i = blk_docs B) by (unfold docs_at; apply nth_error_nth; now rewrite nth_error_map, EB).
    assert (Eb : nth i (map blk_bound bs) 0 = blk_bound B) by (apply nth_error_nth; now rewrite nth_error_map, EB).
    split; [|cbn; now rewrite Ed].
    split; [split; [exact Hids|intros d; apply filter_seq_increasing]|]. cbn [bk_ids v_ids view_of]. split; [reflexivity|].
    cbn [v_docs v_set bk_off bk_trm bk_low]. cbn [view_of v_docs v_set]. rewrite Ed, Eb. unfold start_i. intros q Hq.
    set (s := start_of 1 (map blk_bound bs) i) in *. set (low := low_of 1 (map blk_bound bs) i) in *.
    assert (Hls : length (blk_sets B) = length (blk_docs B)) by (rewrite Hsets; apply map_length).
    assert (Enth : nth q (blk_sets B) [] = map (fun t => t - low) (set_of P (nth q (blk_docs B) 0) s (blk_bound B))).
    { rewrite Hsets. rewrite nth_error_nth with (x := map (fun t => t - low) (set_of P (nth q (blk_docs B) 0) s (blk_bound B))); [reflexivity|].
      rewrite nth_error_map. now rewrite nth_error_nth' with (d := 0) by exact Hq. }
    exists (length (concat (firstn q (blk_sets B)))). split; [|split].
    - rewrite Hoff by (rewrite offsets_from_length; lia). now rewrite offsets_from_nth by lia.
    - rewrite Hoff by (rewrite offsets_from_length; lia). rewrite offsets_from_nth by lia. f_equal. cbn [Nat.add].
      assert (Ef : firstn (q + 1) (blk_sets B) = firstn q (blk_sets B) ++ [nth q (blk_sets B) []]).
      { clear -Hq Hls. rewrite <- Hls in Hq. clear Hls. revert q Hq. induction (blk_sets B) as [|x l IH]; intros q H; [cbn in H; lia|].
        destruct q as [|q]; [reflexivity|]. cbn in *. rewrite IH by lia. reflexivity. }
      rewrite Ef, concat_app, app_length. cbn [concat]. rewrite app_nil_r, Enth, map_length. reflexivity.
    - intros j Hj. assert (Hj' : j < length (nth q (blk_sets B) [])) by (now rewrite Enth, map_length).
      destruct (concat_nth (blk_sets B) q j ltac:(lia) Hj') as [A C]. exists (nth j (nth q (blk_sets B) []) 0).
      split; [rewrite Htrm by exact A; now rewrite C|]. rewrite Enth.
      set (R := set_of P (nth q (blk_docs B) 0) s (blk_bound B)) in *.
      assert (Hin' : In (nth j R 0) R) by (now apply nth_In). apply in_set_of in Hin'.
      rewrite nth_error_nth with (x := nth j R 0 - low); [lia|]. rewrite nth_error_map. now rewrite nth_error_nth' with (d := 0) by exact Hj.
  Qed.

  (** Blocks of terms. *)
  Lemma bid_lt t : 1 <= t <= length P -> bid t < length bs.
  Proof.
    intros Ht. destruct (block_id_in P bs 1 t (bo_blks _ _ _ Hok) Ht) as (A & _). rewrite map_length in A. exact A.
  Qed.
  Lemma bid_mono t1 t2 : 1 <= t1 <= t2 -> t2 <= length P -> bid t1 <= bid t2.
  Proof.
    intros H1 H2. unfold bid. destruct (block_id_in P bs 1 t1 (bo_blks _ _ _ Hok) ltac:(lia)) as (A1 & A2 & A3).
    destruct (block_id_in P bs 1 t2 (bo_blks _ _ _ Hok) ltac:(lia)) as (B1 & B2 & B3).
    destruct (bounds_increasing P bs 1 1 (bo_blks _ _ _ Hok)) as [Hinc _].
    set (i := block_id0 (map blk_bound bs) t1) in *. set (j := block_id0 (map blk_bound bs) t2) in *.
    destruct (Nat.le_gt_cases i j) as [|L]; [assumption|exfalso].
    specialize (A3 ltac:(lia)). destruct (Nat.eq_dec j (i - 1)) as [->|Hn]; [lia|].
    pose proof (increasing_nth_lt _ j (i - 1) Hinc ltac:(lia)). lia.
  Qed.

  Lemma bid_range t : 1 <= t <= length P -> start_i bs (bid t) <= t <= nth (bid t) (map blk_bound bs) 0.
  Proof.
    intros Ht. destruct (block_id_ok P bs 1 1 t (bo_blks _ _ _ Hok) Ht) as (B & Hn & Hst). fold (bid t) in *. unfold start_i.
    assert (E : nth (bid t) (map blk_bound bs) 0 = blk_bound B) by (apply nth_error_nth; now rewrite nth_error_map, Hn). rewrite E. exact Hst.
  Qed.

  Lemma in_docs_at i d : i < length bs -> In d (docs_at i) <-> exists t, start_i bs i <= t <= nth i (map blk_bound bs) 0 /\ has_term P d t.
  Proof.
    intros Hi. destruct (get_some bs i Hi) as (B & EB & _).
    destruct (blks_nth P bs 1 1 i B (bo_blks _ _ _ Hok) EB) as (H1 & H2 & Hinc & Hin & _).
    assert (Ed : docs_at i = blk_docs B) by (unfold docs_at; apply nth_error_nth; now rewrite nth_error_map, EB).
    assert (Eb : nth i (map blk_bound bs) 0 = blk_bound B) by (apply nth_error_nth; now rewrite nth_error_map, EB).
    rewrite Ed, Eb. apply Hin.
  Qed.
  Lemma docs_at_ok i : i < length bs -> docs_at i <> [] /\ increasing (docs_at i) /\ Forall (fun d => d < u) (docs_at i).
  Proof.
    intros Hi. destruct (get_some bs i Hi) as (B & EB & _).
    assert (Ed : docs_at i = blk_docs B) by (unfold docs_at; apply nth_error_nth; now rewrite nth_error_map, EB). rewrite Ed.
    destruct (blk_facts bs i B (bo_blks _ _ _ Hok) EB) as (A & B1 & C & _). auto.
  Qed.

  (** A document of a block has the given terms of the block. *)
  Lemma view_has i ids d : ids <> [] -> Forall (fun t => 1 <= t <= length P /\ bid t = i) ids ->
    (In d (docs_at i) /\ matches (view_of i ids) d = true) <-> Forall (has_term P d) ids.
  Proof.
    intros Hne Hids. rewrite matches_true. cbn [v_ids v_set view_of]. rewrite Forall_forall in Hids. split.
    - intros [_ H]. apply Forall_forall. intros t Ht. specialize (H t Ht). now apply in_set_of in H.
    - intros H. rewrite Forall_forall in H. split.
      + destruct ids as [|t ids]; [congruence|]. destruct (Hids t (or_introl eq_refl)) as [Ht <-].
        apply in_docs_at; [now apply bid_lt|]. exists t. split; [now apply bid_range|apply H; now left].
      + intros t Ht. apply in_set_of. destruct (Hids t Ht) as [Hr <-]. split; [now apply bid_range|now apply H].
  Qed.

  Lemma increasing_app_l l1 l2 : increasing (l1 ++ l2) -> increasing l1.
  Proof.
    clear. induction l1 as [|x l IH]; intros H; [constructor|]. cbn in H. inversion H as [|? ? A B]; subst. constructor; [now apply IH|].
    apply Forall_app in B. apply B.
  Qed.
  Lemma increasing_app_r l1 l2 : increasing (l1 ++ l2) -> increasing l2.
  Proof. clear. induction l1 as [|x l IH]; intros H; [exact H|]. cbn in H. inversion H; subst. now apply IH. Qed.

  Lemma group_terms_ne : forall ids cur pend bl, group_terms K ii cur pend ids = Ok bl -> bl <> [].
  Proof.
    clear. induction ids as [|z l IHl]; intros n p bl E; cbn [group_terms] in E.
    - destruct (open_block K ii n p); cbn [bind] in E; try discriminate. injection E as <-. discriminate.
    - destruct (n <? block_id K ii z); [|eapply IHl; exact E]. destruct (open_block K ii n p); cbn [bind] in E; try discriminate.
      destruct (group_terms K ii (block_id K ii z) [z] l); cbn [bind] in E; try discriminate. injection E as <-. discriminate.
  Qed.

  Lemma group_terms_ok : forall ids cur pend, cur < length bs -> increasing (pend ++ ids) ->
    Forall (fun t => 1 <= t <= length P) (pend ++ ids) -> Forall (fun t => bid t = cur) pend ->
    (forall x, In x ids -> cur <= bid x) -> pend ++ ids <> [] -> (pend = [] -> exists x ids', ids = x :: ids' /\ bid x = cur) ->
    exists bl vs, group_terms K ii cur pend ids = Ok bl /\ Forall2 (fun b v => at_block K at_ b v 0) bl vs /\
      (forall d, in_all vs d <-> Forall (has_term P d) (pend ++ ids)) /\
      (forall v, In v vs -> exists i vi, i < length bs /\ v = view_of i vi) /\ length vs <= length (pend ++ ids) /\
      (Forall (fun t => bid t = cur) ids -> vs = [view_of cur (pend ++ ids)]) /\
      (~ Forall (fun t => bid t = cur) ids -> 2 <= length vs).
  Proof.
    induction ids as [|x ids IH]; intros cur pend Hcur Hinc Hran Hp Hge Hne Hfst.
    - rewrite app_nil_r in *. cbn [group_terms]. destruct (open_block_ok cur pend Hcur Hinc) as (b & Eb & Hb). rewrite Eb. cbn [bind].
      exists [b], [view_of cur pend]. split; [reflexivity|]. split; [repeat constructor; apply Hb|]. split; [|split; [|split; [|split]]].
      + intros d. unfold in_all. rewrite Forall_cons_iff. cbn [v_docs view_of].
        assert (Hpr : Forall (fun t => 1 <= t <= length P /\ bid t = cur) pend).
        { rewrite Forall_forall in *. auto. }
        rewrite (view_has cur pend d Hne Hpr). split; [tauto|]. intros H. split; [exact H|constructor].
      + intros v [<-|[]]. eauto.
      + destruct pend; [congruence|]. cbn. lia.
      + intros _. reflexivity.
      + intros H. exfalso. apply H. constructor.
    - cbn [group_terms]. rewrite block_id_eq.
      assert (Hxr : 1 <= x <= length P) by (rewrite Forall_forall in Hran; apply Hran, in_or_app; right; now left).
      assert (Hgt : Forall (fun y => x < y) ids).
      { apply increasing_app_r in Hinc. now inversion Hinc. }
      assert (Hgeb : forall y, In y ids -> bid x <= bid y).
      { intros y Hy. apply bid_mono; [|rewrite Forall_forall in Hran; apply Hran, in_or_app; right; now right].
        rewrite Forall_forall in Hgt. specialize (Hgt y Hy). lia. }
      destruct (Nat.ltb_spec cur (bid x)) as [L|L].
      + assert (Hpne : pend <> []).
        { intros ->. destruct (Hfst eq_refl) as (x' & ids' & E & Ex). injection E as -> ->. lia. }
        destruct (open_block_ok cur pend Hcur (increasing_app_l _ _ Hinc)) as (b & Eb & Hb). rewrite Eb. cbn [bind].
        destruct (IH (bid x) [x] (bid_lt x Hxr)) as (bl & vs & E & HF & Hin & Hvs & Hlen & _).
        { exact (increasing_app_r _ _ Hinc). } { apply Forall_app in Hran. apply Hran. } { repeat constructor. } { exact Hgeb. }
        { discriminate. } { discriminate. }
        rewrite E. cbn [bind]. exists (b :: bl), (view_of cur pend :: vs). split; [reflexivity|]. split; [constructor; [apply Hb|exact HF]|].
        split; [|split; [|split; [|split]]].
        * intros d. unfold in_all in *. rewrite Forall_cons_iff. cbn [v_docs view_of].
          assert (Hpr : Forall (fun t => 1 <= t <= length P /\ bid t = cur) pend).
          { apply Forall_app in Hran. destruct Hran as [Hran _]. rewrite Forall_forall in *. auto. }
          rewrite (view_has cur pend d Hpne Hpr), Hin. change ([x] ++ ids) with (x :: ids). now rewrite Forall_app.
        * intros v [<-|Hv]; [eauto|]. now apply Hvs.
        * rewrite app_length. cbn in *. destruct pend; [congruence|]. cbn. lia.
        * intros H. inversion H; subst. lia.
        * intros _. destruct vs; [|cbn; lia]. exfalso. cbn in HF. inversion HF; subst.
          exact (group_terms_ne ids (bid x) [x] [] E eq_refl).
      + assert (Ex : bid x = cur) by (specialize (Hge x (or_introl eq_refl)); lia). rewrite Ex.
        assert (Eapp : pend ++ x :: ids = (pend ++ [x]) ++ ids) by (now rewrite <- app_assoc). rewrite Eapp in *.
        destruct (IH cur (pend ++ [x]) Hcur Hinc Hran) as (bl & vs & E & HF & Hin & Hvs & Hlen & Hs & Hm).
        { apply Forall_app. split; [exact Hp|]. repeat constructor. exact Ex. }
        { intros y Hy. apply Hge. now right. }
        { exact Hne. } { intros H. apply app_eq_nil in H. destruct H as [_ H]. discriminate. }
        exists bl, vs. split; [exact E|]. split; [exact HF|]. split; [exact Hin|]. split; [exact Hvs|]. split; [exact Hlen|]. split.
        * intros H. inversion H; subst. now apply Hs.
        * intros H. apply Hm. intros H'. apply H. now constructor.
  Qed.

  Definition in_terms (ids : list nat) (d : nat) : bool := forallb (fun t => memb d (nth (t - 1) P [])) ids.
  Lemma in_terms_true ids d : in_terms ids d = true <-> Forall (has_term P d) ids.
  Proof.
    unfold in_terms. rewrite forallb_forall, Forall_forall. unfold has_term. split; intros H x Hx; [apply memb_true|apply memb_true]; now apply H.
  Qed.

  Lemma filter_ext_in' {A} (f g : A -> bool) l : (forall x, In x l -> f x = g x) -> filter f l = filter g l.
  Proof. clear. intros H. apply filter_ext_in. exact H. Qed.

  (** The intersection of the posting lists of [ids]: all documents with the terms; but if the terms lie in one block,
      not its first document (F5). *)
  Lemma binter_new_ok fuel ids : ids <> [] -> increasing ids -> Forall (fun t => 1 <= t <= length P) ids ->
    (u + 2) * (length ids + 1) < fuel ->
    exists x, binter_new K ii fuel ids = Ok x /\
      ((forall i, Forall (fun t => bid t = i) ids -> yields (binter_stream K ii fuel) x (filter (in_terms ids) (skipn 1 (docs_at i)))) /\
       ((forall i, ~ Forall (fun t => bid t = i) ids) -> yields (binter_stream K ii fuel) x (filter (in_terms ids) (seq 0 u)))).
  Proof.
    intros Hne Hinc Hran Hf. destruct ids as [|x0 ids]; [congruence|]. unfold binter_new. rewrite block_id_eq.
    assert (Hx0 : 1 <= x0 <= length P) by (now inversion Hran).
    destruct (group_terms_ok (x0 :: ids) (bid x0) [] (bid_lt x0 Hx0)) as (bl & vs & E & HF & Hin & Hvs & Hlen & Hs & Hm); auto.
    { intros y Hy. apply bid_mono; [|rewrite Forall_forall in Hran; now apply Hran]. inversion Hinc as [|? ? _ Hlt]; subst.
      destruct Hy as [<-|Hy]; [lia|]. rewrite Forall_forall in Hlt. specialize (Hlt y Hy). lia. }
    { intros _. eauto. }
    cbn [app] in *. rewrite E. cbn [bind].
    pose proof (okb_sort K HK (block K) (fun b => i_size (k_ops K (bi_docs_num K ii)) (bk_docs K b)) bl) as Hperm.
    set (bl' := b_sort K (block K) (fun b => i_size (k_ops K (bi_docs_num K ii)) (bk_docs K b)) bl) in *.
    destruct (Permutation_Forall2 (Permutation_sym Hperm) HF) as (vs' & Pv & HF').
    assert (Hlen' : length vs' = length vs) by (symmetry; now apply Permutation_length).
    assert (Hin' : forall d, in_all vs' d <-> Forall (has_term P d) (x0 :: ids)).
    { intros d. rewrite <- Hin. unfold in_all. split; apply Permutation_Forall; [now symmetry|exact Pv]. }
    assert (Hbl : length bl' = length vs') by (eapply Forall2_len; exact HF').
    assert (Hvne : 0 < length vs).
    { destruct (Forall_dec (fun t => bid t = bid x0) (fun t => Nat.eq_dec (bid t) (bid x0)) (x0 :: ids)) as [H|H].
      - rewrite (Hs H). cbn. lia.
      - specialize (Hm H). lia. }
    destruct (get_some bl' 0) as (b & Eb & Gb); [lia|]. rewrite Gb. cbn [bind].
    destruct bl' as [|b' bl'']; [discriminate|]. cbn in Eb. injection Eb as ->. inversion HF' as [|? v ? vs'' Hbv HF'']; subst.
    assert (Hcur : cursor (k_ops K (bi_docs_num K ii)) (bi_docs_num K ii) at_) by (rewrite (bo_u _ _ _ Hok); apply (bo_cursor _ _ _ Hok)).
    destruct (Hcur _ _ _ (proj2 Hbv)) as (Hi & Hdu & _ & Hdne & _ & _ & _ & _ & _ & (it0 & E0 & Hat0)). rewrite E0. cbn [bind upd].
    destruct (Hcur _ _ _ Hat0) as (_ & _ & _ & _ & _ & _ & Hd0 & _).
    assert (Hab0 : at_block K at_ (with_docs K b it0) v 0) by (eapply with_docs_ok; eauto).
    assert (Hfd : forall w, In w (v :: vs'') -> length (v_docs w) < fuel).
    { intros w Hw. apply (Permutation_in _ (Permutation_sym Pv)) in Hw. destruct (Hvs w Hw) as (i & vi & Hil & ->). cbn [v_docs view_of].
      destruct (docs_at_ok i Hil) as (_ & I1 & I2).
      assert (length (docs_at i) <= u).
      { rewrite <- (seq_length u 0). apply NoDup_incl_length; [now apply increasing_nodup|]. intros y Hy. apply in_seq.
        rewrite Forall_forall in I2. specialize (I2 y Hy). lia. }
      cbn [length] in Hf. nia. }
    assert (Hfu : (bi_docs_num K ii + 2) * (length (v :: vs'') + 1) < fuel) by (rewrite (bo_u _ _ _ Hok), Hlen'; nia).
    destruct (Forall_dec (fun t => bid t = bid x0) (fun t => Nat.eq_dec (bid t) (bid x0)) (x0 :: ids)) as [Hsame|Hdiff].
    - (* one block *)
      specialize (Hs Hsame). subst vs. apply Permutation_length_1_inv in Pv. injection Pv as -> ->. inversion HF''; subst. clear HF'' HF' Hin'.
      set (v := view_of (bid x0) (x0 :: ids)) in *.
      assert (Hpl : 0 < length (v_docs v)) by (destruct (v_docs v); [congruence|cbn; lia]).
      destruct (single_yields K ii at_ Hcur (bo_pos _ _ _ Hok) [v] fuel Hfu Hfd v eq_refl _ (with_docs K b it0) 0 0 eq_refl Hab0 Hpl)
        as (x & Ex & Yx).
      unfold binter_incr in Ex. cbn [y_blocks length Nat.ltb Nat.leb bind y_cand y_i] in Ex. rewrite Hd0, Ex.
      exists x. split; [reflexivity|].
      assert (Ef : filter (matches v) (skipn (0 + 1) (v_docs v)) = filter (in_terms (x0 :: ids)) (skipn 1 (docs_at (bid x0)))).
      { apply filter_ext_in'. intros d Hd. apply eq_true_iff_eq. rewrite in_terms_true. unfold v.
        assert (Hdd : In d (docs_at (bid x0))) by (eapply (Permutation_in _ (Permutation_refl _)); rewrite <- (firstn_skipn 1 (docs_at (bid x0))); apply in_or_app; right; exact Hd).
        rewrite <- (view_has (bid x0) (x0 :: ids) d); [tauto|discriminate|]. rewrite Forall_forall in *. auto. }
      rewrite Ef in Yx. split.
      + intros i Hi'. assert (bid x0 = i) by (now inversion Hi'). now subst i.
      + intros H. exfalso. exact (H _ Hsame).
    - specialize (Hm Hdiff).
      assert (Hsees : sees K at_ (v :: vs'') (with_docs K b it0 :: bl'') (nth 0 (v_docs v) (bi_docs_num K ii))).
      { constructor; [exists 0; split; [exact Hab0|lia]|]. clear -HF''. induction HF''; constructor; auto. exists 0. split; [assumption|lia]. }
      destruct (multi_next_ok K ii at_ Hcur (bo_pos _ _ _ Hok) (v :: vs'') fuel Hfu Hfd 0
        {| y_cand := i_deref (k_ops K (bi_docs_num K ii)) it0; y_i := 0; y_blocks := with_docs K b it0 :: bl'' |}) as (x & Ex & P1 & P2 & P3 & P4).
      { lia. } { cbn [y_cand y_blocks]. rewrite Hd0. exact Hsees. } { reflexivity. }
      { cbn [y_cand]. rewrite Hd0. split; [lia|]. assert (nth 0 (v_docs v) (bi_docs_num K ii) < bi_docs_num K ii); [|lia].
        rewrite Forall_forall in Hdu. apply Hdu, nth_In. destruct (v_docs v); [congruence|cbn; lia]. }
      { cbn [y_cand]. intros d Hd _. rewrite Hd0. inversion Hd as [|? ? [Hdv _] _]; subst. apply (increasing_skip_ge (v_docs v) 0 _ d Hi Hdv). }
      exists x. split; [exact Ex|]. split.
      { intros i Hi'. exfalso. apply Hdiff. assert (bid x0 = i) by (now inversion Hi'). now subst i. }
      intros _. apply (multi_yields K ii at_ Hcur (bo_pos _ _ _ Hok) (v :: vs'') fuel Hfu Hfd); [lia|apply filter_seq_increasing|exact P1| |exact P4].
      intros d. rewrite filter_In, in_seq, in_terms_true, <- Hin'. split.
      + intros [A B]. split; [exact B|]. apply P3; [exact B|lia].
      + intros [A B]. split; [|exact A]. split; [lia|]. unfold in_all in A. inversion A as [|? ? [Hdv _] _]; subst.
        rewrite Forall_forall in Hdu. specialize (Hdu d Hdv). rewrite (bo_u _ _ _ Hok) in Hdu. lia.
  Qed.

  Lemma bid_succ t : 1 <= t -> t + 1 <= length P -> bid t <= bid (t + 1) <= bid t + 1.
  Proof.
    intros H1 H2. split; [apply bid_mono; lia|]. unfold bid.
    destruct (block_id_in P bs 1 t (bo_blks _ _ _ Hok) ltac:(lia)) as (A1 & A2 & A3).
    destruct (block_id_in P bs 1 (t + 1) (bo_blks _ _ _ Hok) ltac:(lia)) as (B1 & B2 & B3).
    destruct (bounds_increasing P bs 1 1 (bo_blks _ _ _ Hok)) as [Hinc _].
    set (i := block_id0 (map blk_bound bs) t) in *. set (j := block_id0 (map blk_bound bs) (t + 1)) in *.
    destruct (Nat.le_gt_cases j (i + 1)) as [|L]; [assumption|exfalso]. specialize (B3 ltac:(lia)).
    pose proof (increasing_nth_lt _ i (j - 1) Hinc ltac:(lia)). lia.
  Qed.

  (** The blocks of a range of terms: from the block of the first to the block of the term before the last (F6). *)
  Lemma range_blocks_ok : forall n i cur, 1 <= i -> cur < length bs -> (n > 0 -> cur <= bid i <= cur + 1 /\ i + n - 1 <= length P) ->
    exists bl, range_blocks K ii i n cur (nth cur (map blk_bound bs) 0) = Ok bl /\
      Forall2 (fun b v => at_block K at_ b v 0) bl (map (fun j => view_of j []) (seq cur ((if n =? 0 then cur else bid (i + n - 1)) + 1 - cur))).
  Proof.
    induction n as [|n IH]; intros i cur Hi Hcur Hn.
    - cbn [range_blocks Nat.eqb]. destruct (open_block_ok cur [] Hcur ltac:(constructor)) as (b & Eb & Hb). rewrite Eb. cbn [bind].
      exists [b]. split; [reflexivity|]. replace (cur + 1 - cur) with 1 by lia. repeat constructor; apply Hb.
    - destruct (Hn ltac:(lia)) as [Hb HT]. clear Hn. cbn [range_blocks].
      destruct (block_id_in P bs 1 i (bo_blks _ _ _ Hok) ltac:(lia)) as (A1 & A2 & A3). fold (bid i) in A1, A2, A3.
      assert (Hnext : n > 0 -> bid i <= bid (i + 1) <= bid i + 1) by (intros; apply bid_succ; lia).
      cbn [Nat.eqb]. replace (i + S n - 1) with (i + n) by lia.
      assert (Hlast : (if n =? 0 then bid i else bid (i + 1 + n - 1)) = bid (i + n)).
      { destruct n as [|n]; cbn [Nat.eqb]; f_equal; lia. }
      assert (Hmono : bid i <= bid (i + n)) by (apply bid_mono; lia).
      destruct (Nat.ltb_spec (nth cur (map blk_bound bs) 0) i) as [L|L].
      + assert (Ei : bid i = cur + 1).
        { destruct (Nat.eq_dec (bid i) cur) as [E|]; [rewrite E in A2; lia|lia]. }
        destruct (open_block_ok cur [] Hcur ltac:(constructor)) as (b & Eb & Hbb). rewrite Eb. cbn [bind].
        rewrite (bo_bounds _ _ _ Hok). rewrite (get_nth _ _ 0) by (rewrite <- Ei; exact A1). cbn [bind].
        rewrite map_length in A1.
        destruct (IH (i + 1) (cur + 1)) as (bl & E & HF); [lia|lia| |].
        { intros Hn0. specialize (Hnext Hn0). split; lia. }
        rewrite E. cbn [bind]. exists (b :: bl). split; [reflexivity|].
        assert (Hl2 : (if n =? 0 then cur + 1 else bid (i + 1 + n - 1)) = bid (i + n)) by (rewrite <- Ei; exact Hlast).
        rewrite Hl2 in HF. replace (bid (i + n) + 1 - cur) with (S (bid (i + n) + 1 - (cur + 1))) by lia. cbn [seq map].
        replace (S cur) with (cur + 1) by lia. constructor; [apply Hbb|exact HF].
      + assert (Ei : bid i = cur).
        { destruct (Nat.eq_dec (bid i) (cur + 1)) as [E|]; [|lia]. rewrite E in A3. specialize (A3 ltac:(lia)).
          replace (cur + 1 - 1) with cur in A3 by lia. lia. }
        destruct (IH (i + 1) cur) as (bl & E & HF); [lia|lia| |].
        { intros Hn0. specialize (Hnext Hn0). split; lia. }
        exists bl. split; [exact E|]. rewrite Ei in Hlast. rewrite Hlast in HF. exact HF.
  Qed.

  Lemma suffix_blocks_ok rb re : 1 <= rb <= re -> re <= length P ->
    exists bl, suffix_blocks K ii rb re = Ok bl /\
      Forall2 (fun b v => at_block K at_ b v 0) bl
        (map (fun j => view_of j []) (seq (bid rb) ((if re =? rb then bid rb else bid (re - 1)) + 1 - bid rb))).
  Proof.
    intros H1 H2. unfold suffix_blocks. rewrite block_id_eq, (bo_bounds _ _ _ Hok). pose proof (bid_lt rb ltac:(lia)) as Hlt.
    rewrite (get_nth _ _ 0) by (rewrite map_length; exact Hlt). cbn [bind].
    destruct (range_blocks_ok (re - rb) rb (bid rb)) as (bl & E & HF); [lia|exact Hlt|intros; lia|].
    exists bl. split; [exact E|].
    assert (El : (if re - rb =? 0 then bid rb else bid (rb + (re - rb) - 1)) = (if re =? rb then bid rb else bid (re - 1))).
    { destruct (Nat.eqb_spec re rb) as [->|Hn]; [now rewrite Nat.sub_diag|]. destruct (Nat.eqb_spec (re - rb) 0); [lia|]. f_equal. lia. }
    rewrite El in HF. exact HF.
  Qed.
End Index.
