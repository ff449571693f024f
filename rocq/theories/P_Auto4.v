(** Conjunctive searches in the blocked index and index type 4. *)
From Coq Require Import Sorted Permutation.
From Verif Require Import Base S_Order S_Vocab S_Parse M_Heap S_Heap P_Heap M_Iter S_Iter M_TopK S_TopK P_TopKDistinct P_Limit M_Parse M_Intersect S_Intersect P_Intersect.
From Verif Require Import M_Containers S_Containers M_Auto M_Auto1 S_Collection S_Found S_Index P_Collection P_Query P_Parse P_ParseFc.
From Verif Require Import M_Auto2 S_Index2 S_Build P_Kept P_Core2 P_Auto2 P_Auto1 P_Auto23.
From Verif Require Import M_Blocked S_Blocked P_Blocked P_BlockView P_BlockIndex P_BlockConj.
Local Open Scope nat_scope.

Lemma in_concat_map {A B} (f : A -> list B) l y : In y (concat (map f l)) <-> exists x, In x l /\ In y (f x).
Proof.
  rewrite in_concat. split.
  - intros (z & Hz & Hy). apply in_map_iff in Hz. destruct Hz as (x & <- & Hx). eauto.
  - intros (x & Hx & Hy). exists (f x). split; [now apply in_map|exact Hy].
Qed.
Lemma concat_map_length {A B} (f : A -> list B) l n : (forall x, In x l -> length (f x) <= n) -> length (concat (map f l)) <= n * length l.
Proof.
  induction l as [|x l IH]; intros H; [cbn; lia|]. cbn [map concat length]. rewrite app_length.
  pose proof (H x (or_introl eq_refl)). specialize (IH (fun y Hy => H y (or_intror Hy))). lia.
Qed.
Lemma increasing_length_lt l n : increasing l -> Forall (fun x => x < n) l -> length l <= n.
Proof.
  intros Hi Hl. rewrite <- (seq_length n 0). apply NoDup_incl_length; [now apply increasing_nodup|].
  intros x Hx. rewrite Forall_forall in Hl. apply in_seq. specialize (Hl x Hx). lia.
Qed.
Lemma increasing_hd l d : increasing l -> In d l -> nth 0 l 0 <= d.
Proof.
  intros H Hd. destruct H as [|x l H Hx]; [destruct Hd|]. cbn. destruct Hd as [->|Hd]; [lia|].
  rewrite Forall_forall in Hx. specialize (Hx d Hd). lia.
Qed.
Lemma lt_le_sorted l : StronglySorted lt l -> StronglySorted le l.
Proof.
  induction 1 as [|x l H IH Hx]; constructor; [exact IH|]. eapply Forall_impl; [|exact Hx]. cbn. lia.
Qed.
Lemma skipn1_in l d : In d l -> d <> nth 0 l 0 -> In d (skipn 1 l).
Proof. destruct l as [|x l]; intros Hd Hn; [destruct Hd|]. cbn in *. destruct Hd; [congruence|assumption]. Qed.
Lemma skipn1_sub (l : list nat) d : In d (skipn 1 l) -> In d l.
Proof. destruct l as [|x l]; cbn; [tauto|]. auto. Qed.
Lemma increasing_skipn1 l : increasing l -> increasing (skipn 1 l).
Proof. destruct 1; cbn; [constructor|assumption]. Qed.
Lemma Forall2_permg {E A} (R : E -> A -> Prop) q q' Rs : Permutation q' q -> Forall2 R q Rs ->
  exists Rs', Permutation Rs Rs' /\ Forall2 R q' Rs'.
Proof.
  intros Hp. apply Permutation_sym in Hp. revert Rs. induction Hp as [|x l l' Hp IH|x y l|l1 l2 l3 H1 IH1 H2 IH2]; intros Rs H.
  - inversion H; subst. exists []. auto.
  - inversion H as [|? r ? Rs0 Hr Hf]; subst. destruct (IH Rs0 Hf) as (R' & P1 & F1). exists (r :: R'). split; [now constructor|now constructor].
  - inversion H as [|? r ? Rs0 Hr Hf]; subst. inversion Hf as [|? r2 ? Rs1 Hr2 Hf2]; subst. exists (r2 :: r :: Rs1).
    split; [constructor|repeat constructor; auto].
  - destruct (IH1 Rs H) as (R1 & P1 & F1). destruct (IH2 R1 F1) as (R2 & P2 & F2). exists R2. split; [eapply perm_trans; eauto|exact F2].
Qed.
Lemma Forall2_seq_map {E A B} (R : E -> A -> Prop) (S : E -> B -> Prop) (f : nat -> A) (g : nat -> B) js q :
  (forall b j, In j js -> R b (f j) -> S b (g j)) -> Forall2 R q (map f js) -> Forall2 S q (map g js).
Proof.
  revert q. induction js as [|j js IH]; intros q H HF; inversion HF as [|b ? q0 ? Hb Hq]; subst; constructor.
  - apply H; [now left|exact Hb].
  - apply IH; [intros; apply H; auto; now right|exact Hq].
Qed.

Lemma in_block_start bs i t : i < length bs ->
  in_block (map blk_bound bs) i t <-> start_i bs i <= t <= nth i (map blk_bound bs) 0 /\ 1 <= t.
Proof.
  intros Hi. unfold in_block, start_i, start_of. rewrite map_length. destruct (Nat.eqb_spec i 0) as [->|Hn].
  - split; [intros (A & B & C); lia|intros (A & B)]. repeat split; lia.
  - split; [intros (A & B & C); specialize (C ltac:(lia)); lia|intros (A & B)]. repeat split; try lia.
Qed.
Lemma start_pos bs i : 1 <= start_i bs i.
Proof. unfold start_i, start_of. destruct (i =? 0); lia. Qed.

Section Q.
  Variable K : bcontainers.
  Hypothesis HK : bcontainers_ok K.
  Variable u : nat.
  Variable P : list (list nat).
  Variable ii : bindex K.
  Variable bs : list blk.
  Variable at_ : k_It K -> list nat -> nat -> Prop.
  Hypothesis Hu : (N.of_nat u < 4294967296)%N.
  Hypothesis HPne : P <> [].
  Hypothesis HP : Forall (fun l => l <> [] /\ increasing l /\ Forall (fun x => x < u) l) P.
  Hypothesis Hfew : (N.of_nat (length (concat P)) < 4294967295)%N.
  Hypothesis Hok : bi_ok K u P ii bs at_.
  Variables rb re : nat.
  Hypothesis Hrb : 1 <= rb <= re.
  Hypothesis Hre : re <= length P.

  Definition suffix_hit (d : nat) : Prop := exists t, rb <= t <= re /\ has_term P d t.
  Definition wanted (prefix : list nat) (d : nat) : Prop := Forall (has_term P d) prefix /\ suffix_hit d.

  Definition row (j : nat) : list (nat * bool) := map (fun d => (d, hits rb re (view_of P bs j []) d)) (docs_at bs j).
  Definition njs : nat := (if re =? rb then bid bs rb else bid bs (re - 1)) + 1 - bid bs rb.
  Definition js : list nat := seq (bid bs rb) njs.
  Definition X0 : list (nat * bool) := concat (map row js).

  Lemma js_lt j : In j js -> j < length bs.
  Proof.
    intros H. unfold js, njs in H. apply in_seq in H. pose proof (bid_lt K u P ii bs at_ Hok rb ltac:(lia)).
    destruct (Nat.eqb_spec re rb); [lia|]. pose proof (bid_lt K u P ii bs at_ Hok (re - 1) ltac:(lia)). lia.
  Qed.
  Lemma bs_length : length bs <= length P.
  Proof.
    destruct (bounds_increasing P bs 1 1 (bo_blks _ _ _ _ _ _ Hok)) as [Hi Hl]. rewrite <- (map_length blk_bound).
    rewrite <- (seq_length (length P) 1). apply NoDup_incl_length; [now apply increasing_nodup|].
    intros x Hx. rewrite Forall_forall in Hl. apply in_seq. split; [now apply Hl|].
    apply in_map_iff in Hx. destruct Hx as (B & <- & HB). apply In_nth_error in HB. destruct HB as [i HB].
    destruct (blks_nth P bs 1 1 i B (bo_blks _ _ _ _ _ _ Hok) HB) as (_ & H & _). lia.
  Qed.
  Lemma X0_length : length X0 <= u * length P.
  Proof.
    unfold X0. etransitivity; [apply (concat_map_length row js u)|].
    - intros j Hj. unfold row. rewrite map_length. destruct (docs_at_ok K u Hu P HP Hfew ii bs at_ Hok j (js_lt j Hj)) as (_ & A & B).
      now apply increasing_length_lt.
    - apply Nat.mul_le_mono_l. etransitivity; [|apply bs_length]. rewrite <- (seq_length (length bs) 0). apply NoDup_incl_length; [apply seq_NoDup|].
      intros j Hj. apply in_seq. pose proof (js_lt j Hj). lia.
  Qed.

  Lemma hits_true j d : hits rb re (view_of P bs j []) d = true <->
    exists t, rb <= t <= re /\ start_i bs j <= t <= nth j (map blk_bound bs) 0 /\ has_term P d t.
  Proof.
    unfold hits. cbn [v_set view_of]. rewrite existsb_exists. split.
    - intros (t & Ht & H). apply in_set_of in Ht. apply andb_true_iff in H. destruct H as [A B]. apply Nat.leb_le in A, B. exists t. tauto.
    - intros (t & H1 & H2 & H3). exists t. split; [now apply in_set_of|]. apply andb_true_iff. split; apply Nat.leb_le; lia.
  Qed.

  Lemma row_hit_docs j : j < length bs -> increasing (hit_docs (row j)).
  Proof.
    intros Hj. destruct (docs_at_ok K u Hu P HP Hfew ii bs at_ Hok j Hj) as (_ & A & _).
    assert (E : hit_docs (row j) = filter (hits rb re (view_of P bs j [])) (docs_at bs j)).
    { unfold hit_docs, row. clear. induction (docs_at bs j) as [|d l IH]; [reflexivity|]. cbn [map filter snd].
      destruct (hits rb re (view_of P bs j []) d); cbn [map fst]; [f_equal; exact IH|exact IH]. }
    rewrite E. now apply filter_increasing.
  Qed.

  Lemma queue_start : exists bl q Rs, suffix_blocks K ii rb re = Ok bl /\
    q = make_heap (k_heap K (block K)) (block_key K ii) bl /\ queue_ok K ii at_ rb re q Rs /\ Permutation X0 (concat Rs).
  Proof.
    destruct (suffix_blocks_ok K u Hu P Hfew ii bs at_ Hok rb re Hrb Hre) as (bl & E & HF). fold njs js in HF.
    exists bl, (make_heap (k_heap K (block K)) (block_key K ii) bl).
    destruct (make_heap_ok (block_key K ii) (k_heap K (block K)) (ok_heap K (okb_base K HK) (block K)) bl) as [H1 P1].
    assert (HD : Forall2 (den K at_ rb re) bl (map row js)).
    { revert HF. apply Forall2_seq_map. intros b j Hj Hb. exists (view_of P bs j []), 0. split; [exact Hb|].
      destruct (docs_at_ok K u Hu P HP Hfew ii bs at_ Hok j (js_lt j Hj)) as (A & _). cbn [v_docs view_of]. split; [|reflexivity].
      destruct (docs_at bs j); [congruence|cbn; lia]. }
    destruct (Forall2_permg _ bl _ _ P1 HD) as (Rs & P2 & HF2). exists Rs. split; [exact E|]. split; [reflexivity|]. split; [split; assumption|].
    now apply concat_perm.
  Qed.

  (** The documents enumerated for the complete tokens. *)
  Definition enumerated (prefix : list nat) (d : nat) : Prop := Forall (has_term P d) prefix /\
    ~ exists i, Forall (in_block (bi_bounds K ii) i) prefix /\ leads (bi_bounds K ii) P i d.

  Lemma leads_first i : i < length bs -> leads (bi_bounds K ii) P i (nth 0 (docs_at bs i) 0) /\
    forall d', leads (bi_bounds K ii) P i d' -> d' = nth 0 (docs_at bs i) 0.
  Proof.
    clear Hrb Hre. intros Hi. rewrite (bo_bounds _ _ _ _ _ _ Hok). destruct (docs_at_ok K u Hu P HP Hfew ii bs at_ Hok i Hi) as (A & B & C).
    assert (Hin0 : In (nth 0 (docs_at bs i) 0) (docs_at bs i)) by (apply nth_In; destruct (docs_at bs i); [congruence|cbn; lia]).
    assert (Hmem : forall d' t, in_block (map blk_bound bs) i t -> has_term P d' t -> In d' (docs_at bs i)).
    { intros d' t H1 H2. apply (in_docs_at K u P ii bs at_ Hok i d' Hi). exists t. apply (in_block_start bs i t Hi) in H1. tauto. }
    assert (Hw : exists t, in_block (map blk_bound bs) i t /\ has_term P (nth 0 (docs_at bs i) 0) t).
    { pose proof Hin0 as H. apply (in_docs_at K u P ii bs at_ Hok i _ Hi) in H. destruct H as (t & H1 & H2). exists t. split; [|exact H2].
      apply in_block_start; [exact Hi|]. pose proof (start_pos bs i). lia. }
    split.
    - split; [exact Hw|]. intros d' t H1 H2. apply increasing_hd; [exact B|]. eapply Hmem; eauto.
    - intros d' [(t & H1 & H2) H3]. destruct Hw as (t' & H4 & H5). pose proof (H3 _ _ H4 H5). pose proof (increasing_hd _ _ B (Hmem _ _ H1 H2)). lia.
  Qed.

  (** The checks made: they depend neither on k nor on the results so far. *)
  Lemma bi_conjunctive_trace fuel prefix : Forall (fun t => 1 <= t <= length P) prefix -> (u + 2) * (length P + 2) < fuel ->
    exists tr, (forall k sc, bi_conjunctive K ii fuel k prefix rb re sc = write k tr 0 sc) /\
      (prefix = [] -> StronglySorted le (map fst tr) /\ Permutation tr (map some_hit X0)) /\
      (prefix <> [] -> increasing (map fst tr) /\ (forall d, In d (map fst tr) <-> enumerated prefix d) /\ Forall (decided X0) tr).
  Proof.
    intros Hpr Hf. destruct queue_start as (bl & q & Rs & Eb & Eq & Hq & HX). unfold bi_conjunctive. rewrite Eb. cbn [bind]. rewrite <- Eq.
    pose proof (Permutation_length HX) as HXl. pose proof X0_length as HX0.
    assert (Hcon : length (concat Rs) < fuel) by nia.
    pose proof (bo_u _ _ _ _ _ _ Hok) as Huu.
    assert (Hcur : cursor (k_ops K (bi_docs_num K ii)) (bi_docs_num K ii) at_) by (rewrite Huu; apply (bo_cursor _ _ _ _ _ _ Hok)).
    assert (Hpos := bo_pos _ _ _ _ _ _ Hok).
    destruct (Nat.eqb_spec (length prefix) 0) as [Hz|Hnz].
    - assert (Ep : prefix = []) by (destruct prefix; [reflexivity|discriminate]).
      destruct (union_trace K HK ii at_ Hcur Hpos rb re _ q Rs eq_refl Hq) as (tr & A & B & C).
      exists tr. split; [intros k sc; now apply C|]. split; [|congruence]. intros _. split; [exact A|]. etransitivity; [exact B|].
      apply Permutation_map. now symmetry.
    - assert (Hne : prefix <> []) by (intros ->; apply Hnz; reflexivity).
      destruct (deduplicate_ok prefix) as [Dinc Din]. apply lt_sorted_increasing in Dinc.
      set (ids := deduplicate prefix) in *.
      assert (Hidne : ids <> []).
      { intros E. destruct prefix as [|t l]; [congruence|]. pose proof (proj2 (Din t) (or_introl eq_refl)) as H. rewrite E in H. destruct H. }
      assert (Hidr : Forall (fun t => 1 <= t <= length P) ids).
      { rewrite Forall_forall in *. intros t Ht. apply Hpr. now apply Din. }
      assert (Hlid : length ids <= length P).
      { rewrite <- (seq_length (length P) 1). apply NoDup_incl_length; [now apply increasing_nodup|].
        intros t Ht. rewrite Forall_forall in Hidr. apply in_seq. specialize (Hidr t Ht). lia. }
      assert (Hterm : forall Q : nat -> Prop, Forall Q ids <-> Forall Q prefix).
      { intros Q. rewrite !Forall_forall. split; intros H t Ht; apply H; now apply Din. }
      destruct (binter_new_ok K HK u Hu P HP Hfew ii bs at_ Hok fuel ids Hidne Dinc Hidr ltac:(nia)) as (x & Ex & Hone & Hmany).
      rewrite Ex. cbn [bind].
      assert (Hr : exists r, yields (binter_stream K ii fuel) x r /\ increasing r /\ Forall (fun d => d < u) r /\
        (forall d, In d r <-> enumerated prefix d)).
      { destruct ids as [|t0 ids0] eqn:Eids; [congruence|]. rewrite <- Eids in *.
        assert (Hdec : {Forall (fun t => bid bs t = bid bs t0) ids} + {~ Forall (fun t => bid bs t = bid bs t0) ids}).
        { apply Forall_dec. intros t. apply Nat.eq_dec. }
        assert (Ht0 : 1 <= t0 <= length P) by (rewrite Eids in Hidr; now inversion Hidr).
        assert (H0 : In t0 ids) by (rewrite Eids; now left).
        assert (Hconv : forall i, Forall (in_block (bi_bounds K ii) i) prefix <-> Forall (fun t => bid bs t = i) ids).
        { intros i. rewrite <- Hterm, (bo_bounds _ _ _ _ _ _ Hok). rewrite Forall_forall in Hidr. rewrite !Forall_forall. split; intros H t Ht.
          - apply (block_id_unique P bs 1); [apply (bo_blks _ _ _ _ _ _ Hok)|now apply Hidr|now apply H].
          - rewrite <- (H t Ht). apply (block_id_in P bs 1); [apply (bo_blks _ _ _ _ _ _ Hok)|now apply Hidr]. }
        destruct Hdec as [Hd|Hd].
        - set (i := bid bs t0) in *. assert (Hi : i < length bs) by (now apply (bid_lt K u P ii bs at_ Hok)).
          destruct (docs_at_ok K u Hu P HP Hfew ii bs at_ Hok i Hi) as (A & B & C). destruct (leads_first i Hi) as [L1 L2].
          exists (filter (in_terms P ids) (skipn 1 (docs_at bs i))). split; [now apply Hone|]. split; [|split].
          + now apply filter_increasing, increasing_skipn1.
          + apply Forall_forall. intros d H. apply filter_In in H. destruct H as [H _]. apply skipn1_sub in H. rewrite Forall_forall in C. now apply C.
          + intros d. rewrite filter_In, in_terms_true, Hterm. unfold enumerated. split.
            * intros [H1 H2]. split; [exact H2|]. intros (i' & F & L). apply Hconv in F.
              assert (i' = i) by (rewrite Forall_forall in F, Hd; specialize (F t0 H0); specialize (Hd t0 H0); congruence).
              subst i'. apply L2 in L. subst d. clear -B H1.
              destruct B as [|y l B Hy]; [destruct H1|]. cbn in *. rewrite Forall_forall in Hy. specialize (Hy y H1). lia.
            * intros [H1 H2]. split; [|exact H1]. apply skipn1_in.
              -- apply (in_docs_at K u P ii bs at_ Hok i d Hi). exists t0. split; [now apply (bid_range K u P ii bs at_ Hok)|].
                 apply Hterm in H1. rewrite Forall_forall in H1. apply H1. exact H0.
              -- intros ->. apply H2. exists i. split; [now apply Hconv|exact L1].
        - exists (filter (in_terms P ids) (seq 0 u)).
          assert (Hm : forall i, ~ Forall (fun t => bid bs t = i) ids).
          { intros i H. apply Hd. rewrite Forall_forall in H. rewrite (H t0 H0). now apply Forall_forall. }
          split; [now apply Hmany|]. split; [|split].
          + apply filter_seq_increasing.
          + apply Forall_forall. intros d H. apply filter_In in H. destruct H as [H _]. apply in_seq in H. lia.
          + intros d. rewrite filter_In, in_terms_true, Hterm. unfold enumerated. split.
            * intros [_ H]. split; [exact H|]. intros (i & F & _). apply (Hm i). now apply Hconv.
            * intros [Hw _]. split; [|exact Hw]. apply in_seq.
              apply Hterm in Hw. rewrite Forall_forall in Hw. specialize (Hw t0 H0). unfold has_term in Hw.
              rewrite Forall_forall in HP. destruct (HP (nth (t0 - 1) P [])) as (_ & _ & Hlt); [apply nth_In; lia|].
              rewrite Forall_forall in Hlt. specialize (Hlt d Hw). lia. }
      destruct Hr as (r & Hy & Hinc & Hlt & Hin).
      destruct (conj4_trace K HK ii at_ Hcur Hpos rb re fuel r x q Rs Hy Hinc) as (tr & A & B & C); [now rewrite Huu|exact Hq|exact Hcon|].
      exists tr. split; [intros k sc; apply C; pose proof (increasing_length_lt r u Hinc Hlt); nia|]. split; [congruence|]. intros _. rewrite A.
      split; [exact Hinc|]. split; [exact Hin|]. eapply Forall_impl; [|exact B]. intros [d o] H. unfold decided in *. cbn [fst snd] in *.
      destruct o as [h|]; [eapply Permutation_in; [symmetry; exact HX|exact H]|].
      intros h Hh. apply (H h). eapply Permutation_in; [exact HX|exact Hh].
  Qed.

  (** The blocks searched. *)
  Lemma js_searched i : In i js <-> exists t, rb <= t <= re /\ in_block (bi_bounds K ii) i t /\ (t < re \/ rb = re).
  Proof.
    rewrite (bo_bounds _ _ _ _ _ _ Hok). unfold js, njs. set (tm := if re =? rb then rb else re - 1).
    assert (Htm : rb <= tm <= re /\ (tm < re \/ rb = re) /\ re <= tm + 1 /\ (rb = re -> tm = re)) by (unfold tm; destruct (Nat.eqb_spec re rb); lia).
    assert (Em : (if re =? rb then bid bs rb else bid bs (re - 1)) = bid bs tm) by (unfold tm; now destruct (re =? rb)). rewrite Em. clearbody tm.
    pose proof (bid_mono K u Hu P Hfew ii bs at_ Hok rb tm ltac:(lia) ltac:(lia)) as Hmono. rewrite in_seq.
    pose proof (bid_lt K u P ii bs at_ Hok tm ltac:(lia)) as Hlt.
    assert (Hin : forall t, 1 <= t <= length P -> in_block (map blk_bound bs) (bid bs t) t) by (intros t Ht; apply (block_id_in P bs 1); [apply (bo_blks _ _ _ _ _ _ Hok)|exact Ht]).
    destruct (bounds_increasing P bs 1 1 (bo_blks _ _ _ _ _ _ Hok)) as [Hi _]. split.
    - intros Hr. destruct (Nat.eq_dec i (bid bs tm)) as [->|Hne]; [exists tm; split; [tauto|]; split; [apply Hin; lia|tauto]|].
      set (b := nth i (map blk_bound bs) 0).
      assert (Hlen : i < length (map blk_bound bs)) by (rewrite map_length; lia).
      assert (H1 : rb <= b).
      { destruct (Hin rb ltac:(lia)) as (_ & A & _). destruct (Nat.eq_dec (bid bs rb) i) as [E|E]; [unfold b; rewrite <- E; lia|].
        pose proof (increasing_nth_lt _ (bid bs rb) i Hi ltac:(lia)). fold b in H. lia. }
      assert (H2 : b < tm).
      { destruct (Hin tm ltac:(lia)) as (A & _ & B). specialize (B ltac:(lia)). destruct (Nat.eq_dec i (bid bs tm - 1)) as [E|E]; [unfold b; rewrite E; exact B|].
        pose proof (increasing_nth_lt _ i (bid bs tm - 1) Hi ltac:(lia)). fold b in H. lia. }
      exists b. split; [lia|]. split; [|lia]. split; [exact Hlen|]. split; [fold b; lia|]. intros H0. unfold b. apply (increasing_nth_lt _ (i - 1) i Hi); lia.
    - intros (t & Ht & Hb & Hc). assert (E : bid bs t = i) by (apply (block_id_unique P bs 1); [apply (bo_blks _ _ _ _ _ _ Hok)|lia|exact Hb]).
      pose proof (bid_mono K u Hu P Hfew ii bs at_ Hok rb t ltac:(lia) ltac:(lia)).
      pose proof (bid_mono K u Hu P Hfew ii bs at_ Hok t tm ltac:(lia) ltac:(lia)). lia.
  Qed.
  Lemma js_nodup : NoDup js.
  Proof. apply seq_NoDup. Qed.
  Lemma in_row j d h : In j js -> In (d, h) (row j) <-> (exists t, in_block (bi_bounds K ii) j t /\ has_term P d t) /\
    (h = true <-> exists t, rb <= t <= re /\ in_block (bi_bounds K ii) j t /\ has_term P d t).
  Proof.
    intros Hj. pose proof (js_lt j Hj) as Hl. rewrite (bo_bounds _ _ _ _ _ _ Hok). unfold row. rewrite in_map_iff.
    assert (Hh : forall d, hits rb re (view_of P bs j []) d = true <-> exists t, rb <= t <= re /\ in_block (map blk_bound bs) j t /\ has_term P d t).
    { intros d0. rewrite hits_true. pose proof (start_pos bs j).
      split; intros (t & H1 & H2 & H3); exists t; (split; [exact H1|]); (split; [|exact H3]); apply (in_block_start bs j t Hl) in H2 || apply (in_block_start bs j t Hl); lia. }
    assert (Hd : In d (docs_at bs j) <-> exists t, in_block (map blk_bound bs) j t /\ has_term P d t).
    { rewrite (in_docs_at K u P ii bs at_ Hok j d Hl). pose proof (start_pos bs j).
      split; intros (t & H1 & H2); exists t; (split; [|exact H2]); apply (in_block_start bs j t Hl) in H1 || apply (in_block_start bs j t Hl); lia. }
    rewrite <- Hd, <- Hh. split.
    - intros (d' & E & Hin). injection E as -> <-. split; [exact Hin|reflexivity].
    - intros [Hin He]. exists d. split; [|exact Hin]. f_equal. destruct h, (hits rb re (view_of P bs j []) d); intuition congruence.
  Qed.
  Lemma in_X0 d h : In (d, h) X0 <-> exists j, In j js /\ (exists t, in_block (bi_bounds K ii) j t /\ has_term P d t) /\
    (h = true <-> exists t, rb <= t <= re /\ in_block (bi_bounds K ii) j t /\ has_term P d t).
  Proof.
    unfold X0. rewrite in_concat_map. split; intros (j & Hj & H); exists j; (split; [exact Hj|]); now apply in_row.
  Qed.
  (** How often a document is found. *)
  Lemma hit_count d : count_occ Nat.eq_dec (hit_docs X0) d = length (filter (fun j => existsb (fun e => (fst e =? d) && snd e) (row j)) js).
  Proof.
    unfold X0. assert (H : forall j, In j js -> increasing (hit_docs (row j))) by (intros j Hj; apply row_hit_docs; now apply js_lt).
    revert H. generalize js. intros l H. induction l as [|j l IH]; [reflexivity|]. cbn [map concat filter].
    assert (E : hit_docs (row j ++ concat (map row l)) = hit_docs (row j) ++ hit_docs (concat (map row l))) by (unfold hit_docs; now rewrite filter_app, map_app).
    rewrite E, count_occ_app, IH by (intros; apply H; now right). specialize (H j (or_introl eq_refl)).
    assert (Hb : existsb (fun e => (fst e =? d) && snd e) (row j) = true <-> In d (hit_docs (row j))).
    { rewrite in_hit_docs, existsb_exists. split.
      - intros ((d' & h) & Hin & B). cbn in B. apply andb_true_iff in B. destruct B as [B1 B2]. apply Nat.eqb_eq in B1. now subst.
      - intros Hin. exists (d, true). split; [exact Hin|]. cbn. now rewrite Nat.eqb_refl. }
    destruct (existsb (fun e => (fst e =? d) && snd e) (row j)).
    - cbn [length]. assert (Hd : In d (hit_docs (row j))) by (now apply Hb).
      pose proof (proj1 (NoDup_count_occ' Nat.eq_dec _) (increasing_nodup _ H) d Hd). lia.
    - assert (Hd : ~ In d (hit_docs (row j))) by (intros Hx; apply Hb in Hx; discriminate).
      apply (count_occ_not_In Nat.eq_dec) in Hd. lia.
  Qed.
End Q.

(** ** Index type 4 *)
Section Bridge.
  Variable c : collection.
  Hypothesis Hwf : wf_collection c.

  Lemma has_term_doc d t : 1 <= t <= length (terms c) ->
    has_term (postings c) d t <-> exists ids, is_doc c d ids /\ In (N.of_nat t) ids.
  Proof.
    intros Ht. unfold has_term. rewrite (nth_error_nth _ _ [] (postings_nth c t Ht)). apply (in_posting c Hwf).
  Qed.

  Lemma wanted_match ts (R : list N -> Prop) prefix a b d :
    positions (stored (terms c)) ts prefix -> exact_range (length (terms c)) (fun i => R (nth i (terms c) [])) a b ->
    wanted (postings c) (a + 1) (b + 1) prefix d <-> exists ids, is_doc c d ids /\ conj_by c R ts (words_of c ids).
  Proof.
    intros Hpos Hr. pose proof Hr as [Hab _]. pose proof (positions_range c ts prefix Hpos) as Hpr. rewrite Forall_forall in Hpr.
    split.
    - intros [Hall (t & Ht & Hd)]. apply has_term_doc in Hd; [|lia]. destruct Hd as (ids & Hdoc & Hin). exists ids. split; [exact Hdoc|].
      apply (conj_match_ids c Hwf ts R ids prefix a b (is_doc_in c d ids Hdoc) Hpos Hr). split.
      + intros i Hi. rewrite Forall_forall in Hall. specialize (Hall i Hi). apply has_term_doc in Hall; [|now apply Hpr].
        destruct Hall as (ids' & Hdoc' & Hin'). pose proof (is_doc_fwd c Hwf d ids Hdoc). pose proof (is_doc_fwd c Hwf d ids' Hdoc'). congruence.
      + exists (N.of_nat t). split; [exact Hin|lia].
    - intros (ids & Hdoc & Hm). apply (conj_match_ids c Hwf ts R ids prefix a b (is_doc_in c d ids Hdoc) Hpos Hr) in Hm.
      destruct Hm as [Hall (x & Hx & Hxr)]. split.
      + apply Forall_forall. intros i Hi. apply has_term_doc; [now apply Hpr|]. exists ids. auto.
      + exists (N.to_nat x). split; [lia|]. apply has_term_doc; [lia|]. exists ids. rewrite N2Nat.id. auto.
  Qed.

  (** *** From the checks made to the specification *)
  Lemma some_known_dec ts : some_known c ts \/ ~ some_known c ts.
  Proof.
    destruct (existsb (fun t => if in_dec (list_eq_dec N.eq_dec) t (stored (terms c)) then true else false) ts) eqn:E.
    - left. apply existsb_exists in E. destruct E as (t & Ht & E). destruct (in_dec (list_eq_dec N.eq_dec) t (stored (terms c))) as [H|]; [|discriminate]. exists t. auto.
    - right. intros (t & Ht & Hk). assert (X : existsb (fun t => if in_dec (list_eq_dec N.eq_dec) t (stored (terms c)) then true else false) ts = true).
      { apply existsb_exists. exists t. split; [exact Ht|]. destruct (in_dec (list_eq_dec N.eq_dec) t (stored (terms c))); [reflexivity|contradiction]. }
      congruence.
  Qed.
  Lemma some_known_prefix ts prefix : positions (stored (terms c)) ts prefix -> (some_known c ts <-> prefix <> []).
  Proof.
    intros Hpos. split.
    - intros (t & Ht & Hk) ->. apply (In_nth_error (stored (terms c))) in Hk. destruct Hk as (i & Hi).
      destruct (proj1 (positions_in c Hwf ts [] Hpos i)). exists t. auto.
    - intros Hne. destruct prefix as [|p l]; [congruence|]. pose proof (positions_range c ts _ Hpos) as Hpr. inversion Hpr as [|? ? Hp _]; subst.
      pose proof (positions_in c Hwf ts _ Hpos (p - 1)) as Hi. replace (p - 1 + 1) with p in Hi by lia.
      destruct (proj2 Hi (or_introl eq_refl)) as (t & Ht & Hn). exists t. split; [exact Ht|eapply nth_error_In; eauto].
  Qed.
  Lemma candidate_ids (K : bcontainers) (ii : bindex K) ts prefix d : positions (stored (terms c)) ts prefix -> prefix <> [] ->
    candidate c (bi_bounds K ii) ts d <-> enumerated K (postings c) ii prefix d.
  Proof.
    intros Hpos Hne. pose proof (positions_range c ts prefix Hpos) as Hpr. rewrite Forall_forall in Hpr. unfold candidate, enumerated.
    assert (E1 : (exists ids, is_doc c d ids /\ forall t, In t ts -> known c t -> In t (words_of c ids)) <-> Forall (has_term (postings c) d) prefix).
    { split.
      - intros (ids & Hd & H). apply Forall_forall. intros i Hi. apply has_term_doc; [now apply Hpr|]. exists ids. split; [exact Hd|].
        apply (conj_known_ids c Hwf ts prefix Hpos ids (is_doc_in c d ids Hd)); assumption.
      - intros H. destruct prefix as [|p l]; [congruence|]. rewrite Forall_forall in H. pose proof (H p (or_introl eq_refl)) as H0.
        apply has_term_doc in H0; [|apply Hpr; now left]. destruct H0 as (ids & Hd & _). exists ids. split; [exact Hd|].
        apply (conj_known_ids c Hwf ts _ Hpos ids (is_doc_in c d ids Hd)). intros i Hi. specialize (H i Hi). apply has_term_doc in H; [|now apply Hpr].
        destruct H as (ids' & Hd' & Hin). pose proof (is_doc_fwd c Hwf d ids Hd). pose proof (is_doc_fwd c Hwf d ids' Hd'). congruence. }
    assert (E2 : forall i, (forall t, 1 <= t <= length (terms c) -> known c (nth (t - 1) (terms c) []) -> In (nth (t - 1) (terms c) []) ts -> in_block (bi_bounds K ii) i t) <->
      Forall (in_block (bi_bounds K ii) i) prefix).
    { intros i. rewrite Forall_forall. split; intros H t.
      - intros Ht. pose proof (Hpr t Ht) as Hr. pose proof (positions_in c Hwf ts _ Hpos (t - 1)) as Hi. replace (t - 1 + 1) with t in Hi by lia.
        destruct (proj2 Hi Ht) as (w & Hw & Hn). assert (Ew : nth (t - 1) (terms c) [] = w) by (apply nth_error_nth; now apply stored_nth_error).
        apply H; [exact Hr| |]; rewrite Ew; [eapply nth_error_In; eauto|exact Hw].
      - intros Hr Hk Hin. apply H. replace t with (t - 1 + 1) by lia.
        apply (positions_in c Hwf ts _ Hpos). exists (nth (t - 1) (terms c) []). split; [exact Hin|].
        apply (known_nth c Hwf) in Hk; [|lia]. rewrite <- stored_nth by exact Hk. now apply nth_error_nth'. }
    rewrite E1. split; intros [A B]; (split; [exact A|]); intros (i & H1 & H2); apply B; exists i; (split; [now apply E2|exact H2]).
  Qed.

  Section Trace.
    Variable K : bcontainers.
    Variable ii : bindex K.
    Variable bs : list blk.
    Variable at_ : k_It K -> list nat -> nat -> Prop.
    Hypothesis Hu : (N.of_nat (universe c) < 4294967296)%N.
    Hypothesis Hfew : (N.of_nat (length (concat (postings c))) < 4294967295)%N.
    Hypothesis Hok : bi_ok K (universe c) (postings c) ii bs at_.
    Variable ts : list (list N).
    Variable R : list N -> Prop.
    Variable prefix : list nat.
    Variables a b : nat.
    Hypothesis Hpos : positions (stored (terms c)) ts prefix.
    Hypothesis Hr : exact_range (length (terms c)) (fun i => R (nth i (terms c) [])) a b.
    Let bounds := bi_bounds K ii.
    Let X := X0 (postings c) bs (a + 1) (b + 1).

    Lemma sought_ids t : sought c R t <-> a + 1 <= t <= b + 1.
    Proof.
      destruct Hr as [Hab Hex]. unfold sought. split.
      - intros [H1 H2]. apply Hex in H2; lia.
      - intros H. split; [lia|]. apply Hex; lia.
    Qed.
    Lemma searched_ids i : searched c bounds R i <-> In i (js bs (a + 1) (b + 1)).
    Proof.
      pose proof Hr as [Hab _]. rewrite (js_searched K (universe c) (postings c) ii bs at_ Hu Hfew Hok (a + 1) (b + 1) ltac:(lia) ltac:(rewrite postings_length; lia)).
      fold bounds. split; intros (t & H1 & H2 & H3); exists t.
      - apply sought_ids in H1. split; [exact H1|]. split; [exact H2|]. destruct H3 as [(t' & L & H3)|H3]; [apply sought_ids in H3; lia|].
        pose proof (H3 (a + 1) ltac:(apply sought_ids; lia)). pose proof (H3 (b + 1) ltac:(apply sought_ids; lia)). lia.
      - split; [now apply sought_ids|]. split; [exact H2|]. destruct H3 as [H3|H3].
        + left. exists (b + 1). split; [exact H3|]. apply sought_ids. lia.
        + right. intros t' Ht'. apply sought_ids in Ht'. lia.
    Qed.
    Lemma in_X d h : In (d, h) X <-> exists j, searched c bounds R j /\ held c bounds j d /\ (h = true <-> shown c bounds R j d).
    Proof.
      pose proof Hr as [Hab _]. unfold X. rewrite (in_X0 K (universe c) (postings c) ii bs at_ Hu Hfew Hok (a + 1) (b + 1) ltac:(lia) ltac:(rewrite postings_length; lia)).
      assert (Hs : forall j, shown c bounds R j d <-> exists t, a + 1 <= t <= b + 1 /\ in_block (bi_bounds K ii) j t /\ has_term (postings c) d t).
      { intros j. split; intros (t & H1 & H2); exists t; (split; [now apply sought_ids|exact H2]). }
      split; intros (j & H1 & H2 & H3); exists j; (split; [now apply searched_ids|]); (split; [exact H2|]); rewrite H3; [symmetry|]; apply Hs.
    Qed.
    Lemma shown_held i d : shown c bounds R i d -> held c bounds i d.
    Proof. intros (t & _ & H). exists t. exact H. Qed.

    Lemma hits_of_in tr d : In d (hits_of tr) <-> In (d, Some true) tr.
    Proof.
      unfold hits_of. rewrite in_map_iff. split.
      - intros ((d' & o) & <- & H). apply filter_In in H. destruct H as [H E]. destruct o as [[|]|]; try discriminate. exact H.
      - intros H. exists (d, Some true). split; [reflexivity|]. now apply filter_In.
    Qed.
    Lemma hits_of_some (Y : list (nat * bool)) : hits_of (map some_hit Y) = hit_docs Y.
    Proof. unfold hits_of, hit_docs. induction Y as [|(d, h) Y IH]; [reflexivity|]. cbn. destruct h; cbn; [f_equal; exact IH|exact IH]. Qed.
    Lemma hits_of_perm tr tr' : Permutation tr tr' -> Permutation (hits_of tr) (hits_of tr').
    Proof. intros H. apply Permutation_map. now apply filter_perm. Qed.
    Lemma sorted_sub {A} (Rl : nat -> nat -> Prop) (f : A -> bool) (g : A -> nat) l : StronglySorted Rl (map g l) -> StronglySorted Rl (map g (filter f l)).
    Proof.
      induction l as [|x l IH]; cbn; intros H; [constructor|]. inversion H as [|? ? H1 H2]; subst. destruct (f x); [|auto]. cbn. constructor; [auto|].
      rewrite Forall_forall in *. intros y Hy. apply H2. apply in_map_iff in Hy. destruct Hy as (z & <- & Hz). apply filter_In in Hz. apply in_map. tauto.
    Qed.
    Lemma first_fails_spec tr : first_fails tr = true -> exists tr1 d0 tr2, tr = tr1 ++ (d0, Some false) :: tr2 /\ Forall (fun e => snd e = None) tr1.
    Proof.
      induction tr as [|(d, o) tr IH]; [discriminate|]. destruct o as [[|]|]; cbn; intros E; [discriminate| |].
      - exists [], d, tr. auto.
      - destruct (IH E) as (tr1 & d0 & tr2 & -> & H). exists ((d, None) :: tr1), d0, tr2. auto.
    Qed.
    Lemma first_succeeds tr : first_fails tr = false -> hits_of tr = [] \/ exists tr1 d0 tr2, tr = tr1 ++ (d0, Some true) :: tr2 /\ Forall (fun e => snd e = None) tr1.
    Proof.
      induction tr as [|(d, o) tr IH]; [left; reflexivity|]. destruct o as [[|]|]; cbn; intros E; [|discriminate|].
      - right. exists [], d, tr. auto.
      - destruct (IH E) as [H|(tr1 & d0 & tr2 & -> & H)]; [left; exact H|right; exists ((d, None) :: tr1), d0, tr2; auto].
    Qed.
    Lemma first_least tr1 d0 (h0 : bool) tr2 d h : StronglySorted le (map fst (tr1 ++ (d0, Some h0) :: tr2)) -> Forall (fun e => snd e = None) tr1 ->
      In (d, Some h) (tr1 ++ (d0, Some h0) :: tr2) -> d0 <= d.
    Proof.
      intros Hs HN Hin. apply in_app_iff in Hin. destruct Hin as [Hin|Hin]; [rewrite Forall_forall in HN; specialize (HN _ Hin); discriminate|].
      rewrite map_app in Hs. cbn [map fst] in Hs. assert (Hs2 : StronglySorted le (d0 :: map fst tr2)).
      { clear -Hs. induction (map fst tr1) as [|x l IH]; [exact Hs|]. cbn in Hs. inversion Hs; subst. auto. }
      destruct Hin as [E|Hin]; [injection E as -> _; lia|]. inversion Hs2 as [|? ? _ HF]; subst. rewrite Forall_forall in HF. apply HF.
      change d with (fst (d, Some h)). now apply in_map.
    Qed.

    Lemma trace_docs tr :
      (prefix = [] -> StronglySorted le (map fst tr) /\ Permutation tr (map some_hit X)) ->
      (prefix <> [] -> increasing (map fst tr) /\ (forall d, In d (map fst tr) <-> enumerated K (postings c) ii prefix d) /\ Forall (decided X) tr) ->
      forall k, blocked_docs c bounds ts R k (if (k =? 0) && first_fails tr then [] else if k =? 0 then hits_of tr else firstn k (hits_of tr)).
    Proof.
      intros H1 H2 k. pose proof (some_known_prefix ts prefix Hpos) as Hsk. pose proof Hr as [Hab _].
      assert (Hdec : prefix = [] \/ prefix <> []) by (destruct prefix; [now left|right; discriminate]).
      assert (Hsorted : StronglySorted le (map fst tr)).
      { destruct Hdec as [Hp|Hp]; [apply (H1 Hp)|]. apply lt_le_sorted. apply (H2 Hp). }
      assert (Hsome : forall d h, In (d, Some h) tr -> In (d, h) X /\ (some_known c ts -> candidate c bounds ts d)).
      { intros d h Hin. destruct Hdec as [Hp|Hp].
        - destruct (H1 Hp) as [_ HP]. apply (Permutation_in _ HP) in Hin. apply in_map_iff in Hin. destruct Hin as ((d' & h') & E & Hin).
          unfold some_hit in E. cbn in E. injection E as -> ->. split; [exact Hin|]. intros Hs. apply Hsk in Hs. contradiction.
        - destruct (H2 Hp) as (_ & HE & HD). rewrite Forall_forall in HD. split; [exact (HD _ Hin)|]. intros _.
          apply (candidate_ids K ii ts prefix d Hpos Hp). apply HE. change d with (fst (d, Some h)). now apply in_map. }
      assert (Hmet : forall d, met c bounds ts R d <-> exists h, In (d, Some h) tr).
      { intros d. split.
        - intros (Hc & j & Hj & Hh). assert (HX : exists h, In (d, h) X).
          { destruct Hh as (t & Hb & Ht).
            assert (Hd : shown c bounds R j d \/ ~ shown c bounds R j d).
            { destruct (existsb (fun e => (fst e =? d) && snd e) (row (postings c) bs (a + 1) (b + 1) j)) eqn:E.
              - left. apply existsb_exists in E. destruct E as ((d' & h) & Hin & B). cbn in B.
                apply andb_true_iff in B. destruct B as [B1 B2]. apply Nat.eqb_eq in B1. subst d' h.
                apply (in_row K (universe c) (postings c) ii bs at_ Hu Hfew Hok (a + 1) (b + 1) ltac:(lia) ltac:(rewrite postings_length; lia) j d true ltac:(now apply searched_ids)) in Hin.
                destruct Hin as (_ & Hin). destruct (proj1 Hin eq_refl) as (t' & A & B). exists t'. split; [now apply sought_ids|exact B].
              - right. intros (t' & A & B).
                assert (Hin : In (d, true) (row (postings c) bs (a + 1) (b + 1) j)).
                { apply (in_row K (universe c) (postings c) ii bs at_ Hu Hfew Hok (a + 1) (b + 1) ltac:(lia) ltac:(rewrite postings_length; lia) j d true ltac:(now apply searched_ids)).
                  split; [exists t; auto|]. split; [|reflexivity]. intros _. exists t'. split; [now apply sought_ids|exact B]. }
                assert (E2 : existsb (fun e : nat * bool => (fst e =? d) && snd e) (row (postings c) bs (a + 1) (b + 1) j) = true).
                { apply existsb_exists. exists (d, true). split; [exact Hin|]. cbn. now rewrite Nat.eqb_refl. }
                congruence. }
            destruct Hd as [Hd|Hd]; [exists true|exists false]; apply in_X; exists j; (split; [exact Hj|]); (split; [exists t; auto|]); [tauto|]. split; [discriminate|contradiction]. }
          destruct HX as (h & HX). destruct Hdec as [Hp|Hp].
          + exists h. destruct (H1 Hp) as [_ HP]. eapply Permutation_in; [symmetry; exact HP|]. change (d, Some h) with (some_hit (d, h)). now apply in_map.
          + destruct (H2 Hp) as (_ & HE & HD). assert (Hin : In d (map fst tr)).
            { apply HE, (candidate_ids K ii ts prefix d Hpos Hp). apply Hc. now apply Hsk. }
            apply in_map_iff in Hin. destruct Hin as ((d' & o) & <- & Hin). rewrite Forall_forall in HD. pose proof (HD _ Hin) as Ho. unfold decided in Ho. cbn [fst snd] in *.
            destruct o as [h'|]; [exists h'; exact Hin|]. exfalso. exact (Ho h HX).
        - intros (h & Hin). destruct (Hsome d h Hin) as [HX Hc]. split; [exact Hc|]. apply in_X in HX. destruct HX as (j & A & B & _). exists j. auto. }
      exists (hits_of tr). split; [split|split].
      - intros Hn. assert (Hp : prefix = []) by (destruct Hdec as [|Hp]; [assumption|]; exfalso; apply Hn; now apply Hsk).
        destruct (H1 Hp) as [_ HP]. split; [now apply sorted_sub|]. intros d.
        exists (filter (fun j => existsb (fun e => (fst e =? d) && snd e) (row (postings c) bs (a + 1) (b + 1) j)) (js bs (a + 1) (b + 1))).
        split; [apply NoDup_filter, js_nodup|]. split.
        + intros i. rewrite filter_In, <- searched_ids, existsb_exists. split.
          * intros (Hi & ((d' & h) & Hin & B)). split; [exact Hi|]. cbn in B. apply andb_true_iff in B. destruct B as [B1 B2]. apply Nat.eqb_eq in B1. subst d' h.
            apply (in_row K (universe c) (postings c) ii bs at_ Hu Hfew Hok (a + 1) (b + 1) ltac:(lia) ltac:(rewrite postings_length; lia) i d true ltac:(now apply searched_ids)) in Hin.
            destruct Hin as (_ & Hin). destruct (proj1 Hin eq_refl) as (t' & A & B). exists t'. split; [now apply sought_ids|exact B].
          * intros [Hi (t' & A & B)]. split; [exact Hi|]. exists (d, true). split; [|cbn; now rewrite Nat.eqb_refl].
            apply (in_row K (universe c) (postings c) ii bs at_ Hu Hfew Hok (a + 1) (b + 1) ltac:(lia) ltac:(rewrite postings_length; lia) i d true ltac:(now apply searched_ids)).
            split; [exists t'; exact B|]. split; [|reflexivity]. intros _. exists t'. split; [now apply sought_ids|exact B].
        + rewrite (proj1 (Permutation_count_occ Nat.eq_dec _ _) (hits_of_perm _ _ HP) d), hits_of_some.
          apply (hit_count K (universe c) (postings c) ii bs at_ Hu (postings_ok c Hwf) Hfew Hok (a + 1) (b + 1)); [lia|rewrite postings_length; lia].
      - intros Hs. apply Hsk in Hs. destruct (H2 Hs) as (Hi & HE & HD). split; [now apply sorted_sub|]. split.
        + intros d Hd. apply hits_of_in in Hd. destruct (Hsome d true Hd) as [HX Hc]. split; [apply Hc; now apply Hsk|]. apply in_X in HX.
          destruct HX as (j & A & _ & B). exists j. split; [exact A|]. now apply B.
        + intros d i Hc Hse Hsh Hall. apply hits_of_in. assert (Hin : In d (map fst tr)) by (apply HE; now apply (candidate_ids K ii ts prefix d Hpos Hs)).
          apply in_map_iff in Hin. destruct Hin as ((d' & o) & <- & Hin). rewrite Forall_forall in HD. pose proof (HD _ Hin) as Ho. unfold decided in Ho. cbn [fst snd] in *.
          destruct o as [[|]|]; [exact Hin| |]; exfalso.
          * apply in_X in Ho. destruct Ho as (j & A & B & C). specialize (Hall j A B). apply C in Hall. discriminate.
          * apply (Ho true). apply in_X. exists i. split; [exact Hse|]. split; [now apply shown_held|]. tauto.
      - intros Hk. destruct (Nat.eqb_spec k 0); [lia|]. reflexivity.
      - intros ->. cbn [Nat.eqb andb]. split; [destruct (first_fails tr); [now right|now left]|]. intros d Hm Hleast.
        destruct (proj1 (Hmet d) Hm) as (h & Hin).
        assert (Hfirst : forall tr1 d0 h0 tr2, tr = tr1 ++ (d0, Some h0) :: tr2 -> Forall (fun e => snd e = None) tr1 -> d0 = d).
        { intros tr1 d0 h0 tr2 E HN. assert (Hm0 : met c bounds ts R d0) by (apply Hmet; exists h0; rewrite E; apply in_or_app; right; now left).
          specialize (Hleast d0 Hm0). pose proof Hsorted as Hs'. rewrite E in Hs', Hin. pose proof (first_least _ _ _ _ _ _ Hs' HN Hin). lia. }
        split; [|split].
        + intros Hni. destruct (first_fails tr) eqn:E; [reflexivity|]. destruct (first_succeeds tr E) as [H|(tr1 & d0 & tr2 & Et & HN)]; [exact H|].
          exfalso. apply Hni. apply hits_of_in. rewrite <- (Hfirst _ _ _ _ Et HN), Et. apply in_or_app. right. now left.
        + intros Hs Hd. destruct (first_fails tr) eqn:E; [|reflexivity]. destruct (first_fails_spec tr E) as (tr1 & d0 & tr2 & Et & HN).
          exfalso. pose proof (Hfirst _ _ _ _ Et HN) as ->. apply hits_of_in in Hd. apply Hsk in Hs. destruct (H2 Hs) as (Hi & _).
          assert (Hin2 : In (d, Some false) tr) by (rewrite Et; apply in_or_app; right; now left).
          apply increasing_nodup in Hi. clear -Hd Hin2 Hi. induction tr as [|e tr IH]; [destruct Hd|]. cbn in Hi. inversion Hi as [|? ? Hn Hi']; subst.
          destruct Hd as [->|Hd], Hin2 as [E2|Hin2]; [discriminate|apply Hn; cbn; change d with (fst (d, Some false)); now apply in_map| |auto].
          subst e. apply Hn. cbn. change d with (fst (d, Some true)). now apply in_map.
        + intros Hall. destruct (first_fails tr) eqn:E; [|reflexivity]. destruct (first_fails_spec tr E) as (tr1 & d0 & tr2 & Et & HN).
          exfalso. pose proof (Hfirst _ _ _ _ Et HN) as ->.
          assert (Hin2 : In (d, Some false) tr) by (rewrite Et; apply in_or_app; right; now left). destruct (Hsome d false Hin2) as [HX _].
          apply in_X in HX. destruct HX as (j & A & B & C). specialize (Hall j A B). apply C in Hall. discriminate.
    Qed.
  End Trace.

  (** *** What the exact answer implies *)
  Section Implied.
    Variables (bounds : list nat) (ts : list (list N)) (R : list N -> Prop).

    Lemma full_match full d : all_blocked c bounds ts R full -> In d full ->
      exists ids, is_doc c d ids /\ conj_by c R ts (words_of c ids).
    Proof.
      intros [A B] Hd.
      assert (Hsh : (exists i, searched c bounds R i /\ shown c bounds R i d) /\
                    (exists ids, is_doc c d ids /\ forall t, In t ts -> known c t -> In t (words_of c ids)) \/ (exists i, shown c bounds R i d) /\ ~ some_known c ts).
      { destruct (some_known_dec ts) as [Hs|Hs].
        - left. destruct (B Hs) as (_ & B2 & _). destruct (B2 d Hd) as [[B3 _] B4]. auto.
        - right. destruct (A Hs) as (_ & A2). destruct (A2 d) as (js & _ & A3 & A4). split; [|exact Hs].
          apply (count_occ_In Nat.eq_dec) in Hd. destruct js as [|j js]; [cbn in A4; lia|]. destruct (proj1 (A3 j) (or_introl eq_refl)) as [_ H]. exists j. exact H. }
      assert (Hshown : forall i, shown c bounds R i d -> exists ids t, is_doc c d ids /\ sought c R t /\ In (N.of_nat t) ids).
      { intros i (t & H1 & _ & H2). apply has_term_doc in H2; [|apply H1]. destruct H2 as (ids & H2 & H3). exists ids, t. auto. }
      assert (Hword : forall ids t, is_doc c d ids -> sought c R t -> In (N.of_nat t) ids -> exists w, In w (words_of c ids) /\ R w).
      { intros ids t _ [H1 H2] Hin. exists (nth (t - 1) (terms c) []). split; [|exact H2]. unfold words_of. apply in_map_iff. exists (N.of_nat t). split; [|exact Hin].
        unfold word. now rewrite Nat2N.id. }
      destruct Hsh as [((i & _ & Hs) & ids & Hdoc & Hk)|((i & Hs) & Hn)]; destruct (Hshown i Hs) as (ids' & t & Hdoc' & Ht & Hin).
      - pose proof (is_doc_fwd c Hwf d ids Hdoc). pose proof (is_doc_fwd c Hwf d ids' Hdoc'). 
        exists ids. split; [exact Hdoc|]. split; [exact Hk|]. apply (Hword ids t); [exact Hdoc|exact Ht|congruence].
      - exists ids'. split; [exact Hdoc'|]. split; [intros w Hw Hk; exfalso; apply Hn; exists w; auto|]. eapply Hword; eauto.
    Qed.
    Lemma full_sorted full : all_blocked c bounds ts R full -> StronglySorted le full.
    Proof.
      intros [A B]. destruct (some_known_dec ts) as [Hs|Hs]; [apply lt_le_sorted; apply (B Hs)|apply (A Hs)].
    Qed.
    Lemma firstn_sorted k l : StronglySorted le l -> StronglySorted le (firstn k l).
    Proof.
      intros H. revert k. induction H as [|x l H IH Hx]; intros [|k]; cbn; constructor; [apply IH|].
      rewrite Forall_forall in *. intros y Hy. apply Hx. rewrite <- (firstn_skipn k l). apply in_or_app. now left.
    Qed.

    Lemma blocked_sound k out : blocked_answer c bounds ts R k out ->
      sound_answer c (conj_by c R ts) (if k =? 0 then length out else k) out.
    Proof.
      intros [(full & Hf & Hpos & Hz) Ht].
      assert (Hds : StronglySorted le (map fst out) /\ length out <= (if k =? 0 then length out else k) /\ forall d, In d (map fst out) -> In d full).
      { rewrite <- (map_length fst out) at 1. pose proof (full_sorted full Hf) as Hs. destruct (Nat.eqb_spec k 0) as [->|Hk].
        - rewrite map_length. destruct (Hz eq_refl) as [[->| ->] _]; (split; [|split; [lia|]]); [exact Hs|auto|constructor|intros d []].
        - rewrite (Hpos ltac:(lia)). split; [now apply firstn_sorted|]. split; [rewrite firstn_length; lia|].
          intros d Hd. rewrite <- (firstn_skipn k full). apply in_or_app. now left. }
      destruct Hds as (A & B & C). split; [exact A|]. split; [exact B|]. intros d s Hin.
      assert (Hd : In d full) by (apply C; change d with (fst (d, s)); now apply in_map).
      destruct (full_match full d Hf Hd) as (ids & Hdoc & Hm). destruct (Ht d s Hin) as (ids' & Hdoc' & ->). exists ids. split; [exact Hdoc|]. split; [exact Hm|].
      pose proof (is_doc_fwd c Hwf d ids Hdoc). pose proof (is_doc_fwd c Hwf d ids' Hdoc'). congruence.
    Qed.

    Hypothesis Hb : blocks_of (length (terms c)) bounds.
    Hypothesis Hex : query_exact_by c R bounds ts.

    Lemma sought_block i j t1 t2 : sought c R t1 -> sought c R t2 -> in_block bounds i t1 -> in_block bounds j t2 -> i = j.
    Proof.
      assert (W : forall i j t1 t2, sought c R t1 -> sought c R t2 -> in_block bounds i t1 -> in_block bounds j t2 -> t1 <= t2 -> i = j).
      { clear i j t1 t2. intros i j t1 t2 [H1 H2] [H3 H4] (A1 & A2 & A3) (B1 & B2 & B3) L. destruct Hb as [Hi _].
        pose proof (proj1 Hex t1 t2 ltac:(lia) ltac:(lia) H2 H4) as Hs.
        destruct (Nat.lt_trichotomy i j) as [C|[C|C]]; [exfalso|exact C|exfalso].
        - assert (Hlt : nth i bounds 0 < t2).
          { specialize (B3 ltac:(lia)). destruct (Nat.eq_dec i (j - 1)) as [->|Hn]; [exact B3|].
            pose proof (increasing_nth_lt bounds i (j - 1) Hi ltac:(lia)). lia. }
          apply (Hs (nth i bounds 0)); [now apply nth_In|lia].
        - specialize (A3 ltac:(lia)). destruct (Nat.eq_dec j (i - 1)) as [->|Hn]; [lia|].
          pose proof (increasing_nth_lt bounds j (i - 1) Hi ltac:(lia)). lia. }
      intros H1 H2 H3 H4. destruct (Nat.le_ge_cases t1 t2) as [L|L]; [exact (W i j t1 t2 H1 H2 H3 H4 L)|symmetry; exact (W j i t2 t1 H2 H1 H4 H3 L)].
    Qed.
    (** If the document has a term sought, a searched block shows it. *)
    Lemma searched_exists d t : sought c R t -> has_term (postings c) d t -> ~ ~ exists i, searched c bounds R i /\ shown c bounds R i d.
    Proof.
      intros Hs Ht Hno. destruct (proj2 Hb t (proj1 Hs)) as (i & Hi).
      assert (Hsh : shown c bounds R i d) by (exists t; auto).
      assert (Hns : ~ searched c bounds R i) by (intros H; apply Hno; exists i; auto).
      apply Hns. exists t. split; [exact Hs|]. split; [exact Hi|]. right. intros t' Ht'.
      destruct (Nat.lt_trichotomy t' t) as [L|[L|L]]; [exfalso|exact L|exfalso]; apply Hns.
      - destruct (proj2 Hb t' (proj1 Ht')) as (j & Hj). pose proof (sought_block j i t' t Ht' Hs Hj Hi) as ->.
        exists t'. split; [exact Ht'|]. split; [exact Hj|]. left. exists t. auto.
      - exists t. split; [exact Hs|]. split; [exact Hi|]. left. exists t'. auto.
    Qed.
    Lemma full_exact full : all_blocked c bounds ts R full ->
      increasing full /\ forall d, In d full <-> exists ids, is_doc c d ids /\ conj_by c R ts (words_of c ids).
    Proof.
      intros Hf. pose proof Hf as [A B].
      assert (Huniq : forall i j, searched c bounds R i -> searched c bounds R j -> i = j).
      { intros i j (t1 & H1 & H2 & _) (t2 & H3 & H4 & _). exact (sought_block i j t1 t2 H1 H3 H2 H4). }
      split.
      - destruct (some_known_dec ts) as [Hs|Hs]; [apply (B Hs)|]. destruct (A Hs) as [A1 A2].
        assert (Hnd : NoDup full).
        { apply (NoDup_count_occ Nat.eq_dec). intros d. destruct (A2 d) as (js & J1 & J2 & ->).
          destruct js as [|i [|j js]]; [cbn; lia|cbn; lia|]. exfalso. inversion J1 as [|? ? J3 _]; subst. apply J3. left.
          apply Huniq; [apply (J2 j); right; now left|apply (J2 i); now left]. }
        clear -A1 Hnd. induction A1 as [|x l H IH Hx]; [constructor|]. inversion Hnd as [|? ? Hn Hnd']; subst. constructor; [exact (IH Hnd')|].
        rewrite Forall_forall in *. intros y Hy. specialize (Hx y Hy). assert (x <> y) by congruence. lia.
      - intros d. split; [now apply full_match|]. intros (ids & Hdoc & Hk & w & Hw & HR).
        destruct (in_dec Nat.eq_dec d full) as [|Hn]; [assumption|exfalso].
        assert (Ht : exists t, sought c R t /\ has_term (postings c) d t).
        { unfold words_of in Hw. apply in_map_iff in Hw. destruct Hw as (x & <- & Hx). destruct (ids_range c Hwf ids x (is_doc_in c d ids Hdoc) Hx) as (_ & Hrange & _).
          exists (N.to_nat x). split; [split; [lia|exact HR]|]. apply has_term_doc; [lia|]. exists ids. rewrite N2Nat.id. auto. }
        destruct Ht as (t & Ht1 & Ht2). apply (searched_exists d t Ht1 Ht2). intros (i & Hi1 & Hi2). apply Hn.
        destruct (some_known_dec ts) as [Hs|Hs].
        + destruct (B Hs) as (_ & _ & B3). apply (B3 d i); [|exact Hi1|exact Hi2|].
          * split; [exists ids; auto|]. intros (i' & F & L). refine (proj2 Hex i' d ids Hs F L Hdoc (conj Hk _)). exists w. auto.
          * intros j Hj _. now rewrite (Huniq j i Hj Hi1).
        + destruct (A Hs) as [_ A2]. destruct (A2 d) as (js & _ & J2 & J3). apply (count_occ_In Nat.eq_dec). rewrite J3.
          destruct js as [|j js]; [|cbn; lia]. destruct (proj2 (J2 i) (conj Hi1 Hi2)).
    Qed.
    Lemma blocked_exact k out : 1 <= k -> blocked_answer c bounds ts R k out -> topk_answer c (conj_by c R ts) k out.
    Proof.
      intros Hk [(full & Hf & Hpos & _) Ht]. destruct (full_exact full Hf) as [Hi Hin].
      assert (Eo : out = answer_of c (map fst out)).
      { unfold answer_of. rewrite map_map. rewrite <- (map_id out) at 1. apply map_ext_in. intros [d s] H. destruct (Ht d s H) as (ids & Hdoc & ->).
        cbn. now rewrite (is_doc_fwd c Hwf d ids Hdoc). }
      rewrite Eo, (Hpos Hk). apply (answer_of_ok c Hwf _ k full); [exact Hin|]. now apply firstn_k_smallest.
    Qed.
  End Implied.

  Lemma topk_sound P k out : topk_answer c P k out -> sound_answer c P k out.
  Proof. intros (A & B & C & _). split; [now apply lt_le_sorted|]. auto. Qed.
End Bridge.

Section Auto4.
  Variable K : bcontainers.
  Hypothesis HK : bcontainers_ok K.
  Variable c : collection.
  Hypothesis Hwf : wf_collection c.
  Hypothesis Hfew : few_postings c.

  Record index4_ok (x : index4 K) (bs : list blk) (at_ : k_It K -> list nat -> nat -> Prop) : Prop := {
    i4_core : core_ok c (a4_core x);
    i4_inv : bi_ok K (universe c) (postings c) (a4_inverted x) bs at_
  }.

  Lemma universe_lt : (N.of_nat (universe c) < 4294967296)%N.
  Proof. pose proof (wf_universe c Hwf). lia. Qed.
  Lemma postings_ne : postings c <> [].
  Proof. pose proof (terms_nonempty c Hwf). intros E. pose proof (postings_length c). rewrite E in *. cbn in *. lia. Qed.

  Lemma ac4_build_ok m : some_kept_doc_positive c -> exists x bs at_, ac4_build K m (files_of c) = Ok x /\ index4_ok x bs at_.
  Proof.
    intros Hpos. unfold ac4_build. destruct (core_build_ok K (okb_base K HK) c Hwf Hpos) as (co & E & Hco). rewrite E. cbn [bind].
    cbn [f_universe f_inverted files_of]. fold (postings c).
    destruct (bi_build_ok K HK (universe c) universe_lt (postings c) postings_ne (postings_ok c Hwf) Hfew m) as (ii & bs & at_ & Ei & Hi).
    rewrite Ei. cbn [bind]. exists {| a4_core := co; a4_inverted := ii |}, bs, at_. split; [reflexivity|]. constructor; assumption.
  Qed.

  Variable x : index4 K.
  Variable bs : list blk.
  Variable at_ : k_It K -> list nat -> nat -> Prop.
  Hypothesis Hx : index4_ok x bs at_.
  Variable fuel : nat.
  Hypothesis Hfuel : query_fuel c < fuel.
  Variable k : nat.

  Lemma bounds_blocks : blocks_of (length (terms c)) (bi_bounds K (a4_inverted x)).
  Proof.
    pose proof (i4_inv x bs at_ Hx) as Hok. rewrite (bo_bounds _ _ _ _ _ _ Hok). split.
    - apply (bounds_increasing (postings c) bs 1 1). apply (bo_blks _ _ _ _ _ _ Hok).
    - intros t Ht. eexists. apply (block_id_in (postings c) bs 1); [apply (bo_blks _ _ _ _ _ _ Hok)|now rewrite postings_length].
  Qed.

  Definition answers4 (run : state2 -> res state2) (ts : list (list N)) (last : list N) : Prop :=
    forall s, state2_ok s -> exists out, blocked_answer c (bi_bounds K (a4_inverted x)) ts (found c last) k out /\
      (reportable2 c out -> exists s', run s = Ok s' /\ pool_results (s2_pool s') = Ok out /\ state2_ok s') /\
      (~ reportable2 c out -> run s = UB).

  Lemma ac4_conj_ok q ts last : query_split q ts last ->
    answers4 (ac4_conjunctive_topk K x fuel k q) ts last.
  Proof.
    intros Hs s Hst. unfold ac4_conjunctive_topk.
    destruct (start_ok c Hwf (a4_core x) (i4_core x bs at_ Hx) false q ts last s Hs Hst) as (o & s1 & E1 & Hst1 & Hpool & Ho).
    rewrite E1. cbn [bind]. destruct o as [[[prefix a] b]|].
    2:{ exists []. split; [|split; [|intros H; exfalso; apply H; apply P_Pool.reportable2_nil]].
        - assert (Hno : forall t, ~ sought c (found c last) t).
          { intros t [H1 H2]. destruct Ho as [[Hn _]|Hn]; [discriminate|]. exact (Hn (t - 1) ltac:(lia) H2). }
          assert (Hns : forall i, ~ searched c (bi_bounds K (a4_inverted x)) (found c last) i) by (intros i (t & H & _); exact (Hno t H)).
          split; [|intros d s' []]. exists []. split; [split|split].
          + intros _. split; [constructor|]. intros d. exists []. split; [constructor|]. split; [|reflexivity]. intros i. split; [intros []|]. intros [H _]. exact (Hns i H).
          + intros _. split; [constructor|]. split; [intros d []|]. intros d i _ H. destruct (Hns i H).
          + intros _. cbn. now rewrite firstn_nil.
          + intros _. split; [now left|]. intros d (_ & i & H & _). destruct (Hns i H).
        - intros _. exists s1. split; [reflexivity|]. split; [now apply (empty_results s1 s)|exact Hst1]. }
    destruct Ho as (_ & Hpos & Hr). pose proof Hr as [Hab _]. pose proof Hst1 as (Hp & Hb & Hl & Hrr & Hc & Hcl & Hsz).
    pose proof Hp as [Hp1 Hp2]. pose proof (positions_range c ts prefix Hpos) as Hpr.
    destruct (bi_conjunctive_trace K HK (universe c) (postings c) (a4_inverted x) bs at_ universe_lt (postings_ok c Hwf) Hfew
                (i4_inv x bs at_ Hx) (a + 1) (b + 1) ltac:(lia) ltac:(rewrite postings_length; lia) fuel prefix) as (tr & E & T1 & T2).
    { now rewrite postings_length. } { rewrite postings_length. exact Hfuel. }
    pose proof (trace_docs c Hwf K (a4_inverted x) bs at_ universe_lt Hfew (i4_inv x bs at_ Hx) ts (found c last) prefix a b Hpos Hr tr T1 T2 k) as Hds.
    set (ds := if (k =? 0) && first_fails tr then [] else if k =? 0 then hits_of tr else firstn k (hits_of tr)) in *.
    assert (Hout : outcome MAX_K ds (bi_conjunctive K (a4_inverted x) fuel k prefix (a + 1) (b + 1) (p_scores (s2_pool s1)))).
    { rewrite E, <- Hp1. unfold ds. destruct (Nat.eqb_spec k 0) as [->|Hk].
      - pose proof (write_zero tr (p_scores (s2_pool s1))) as H. cbn [andb]. exact H.
      - cbn [andb]. apply write_pos. lia. }
    clearbody ds.
    assert (Ef : map fst (answer_of c ds) = ds) by (unfold answer_of; rewrite map_map; apply map_id).
    assert (Hw : forall d, In d ds -> exists ids, is_doc c d ids).
    { destruct Hds as (full & Hf & D1 & D2). intros d Hd. assert (Hin : In d full).
      { destruct (Nat.eq_dec k 0) as [->|Hk]; [destruct (D2 eq_refl) as [[->| ->] _]; [exact Hd|destruct Hd]|].
        rewrite (D1 ltac:(lia)) in Hd. rewrite <- (firstn_skipn k full). apply in_or_app. now left. }
      destruct (full_match c Hwf _ ts (found c last) full d Hf Hin) as (ids & H & _). eauto. }
    exists (answer_of c ds). split.
    { split; [now rewrite Ef|]. intros d t H. unfold answer_of in H. apply in_map_iff in H. destruct H as (d' & Ed & Hd). injection Ed as -> <-.
      destruct (Hw d Hd) as (ids & Hdoc). exists ids. split; [exact Hdoc|]. now rewrite (is_doc_fwd c Hwf d ids Hdoc). }
    destruct Hout as [(Hlen & scores & Eb & L & F)|(Hlen & Eb)]; rewrite Eb; cbn [bind].
    2:{ split; [|reflexivity]. intros [[Hr1 _] _]. unfold answer_of in Hr1. rewrite map_length in Hr1. lia. }
    apply (finish_ok c Hwf (a4_core x) (i4_core x bs at_ Hx) ds scores s1 Hst1).
    { rewrite Hpool. reflexivity. } { exact F. } { exact L. }
    { apply Forall_forall. intros d Hd. destruct (Hw d Hd) as (ids & Hdoc). eapply (is_doc_has c Hwf); eauto. }
  Qed.

  Lemma ac4_prefix_ok q ts last : query_split q ts last ->
    answers2 c k (ac4_prefix_topk K x fuel k q) (prefix_found c ts last).
  Proof.
    intros. unfold ac4_prefix_topk. eapply (core_prefix_ok K (okb_base K HK)); eauto. apply (i4_core x bs at_ Hx).
  Qed.
End Auto4.

(** Sessions, for any relation between requests and answers. *)
Lemma session_gen_ok (Q : request -> Prop) (A : request -> list (nat * list N) -> Prop) (run : request -> state2 -> res state2) :
  (forall r s, Q r -> state2_ok s -> exists out s', run r s = Ok s' /\ pool_results (s2_pool s') = Ok out /\ state2_ok s' /\ A r out) ->
  forall rs s, state2_ok s -> Forall Q rs ->
  exists outs s', session run (fun s => pool_results (s2_pool s)) rs s = Ok (outs, s') /\ Forall2 A rs outs /\ state2_ok s'.
Proof.
  intros H rs s Hs Hr. revert s Hs. induction Hr as [|r rs Hr1 Hr IH]; intros s Hs.
  - exists [], s. cbn. auto.
  - destruct (H r s Hr1 Hs) as (out & s1 & E1 & E2 & E3 & E4). destruct (IH s1 E3) as (outs & s2 & F1 & F2 & F3).
    exists (out :: outs), s2. cbn [session]. rewrite E1. cbn [bind]. rewrite E2. cbn [bind]. rewrite F1. cbn [bind].
    split; [reflexivity|]. split; [now constructor|exact F3].
Qed.

Section Final4.
  Variable K : bcontainers.
  Hypothesis HK : bcontainers_ok K.
  Variable c : collection.
  Hypothesis Hwf : wf_collection c.
  Hypothesis Hfew : few_postings c.

  Lemma auto4_exact m : some_kept_doc_positive c -> exists x, ac4_build K m (files_of c) = Ok x /\
    let bounds := bi_bounds K (a4_inverted x) in blocks_of (length (terms c)) bounds /\
    forall fuel k q ts last s, query_fuel c < fuel -> query_split q ts last -> state2_ok s ->
      (exists out, topk_answer c (prefix_found c ts last) (limit c k) out /\
        (reportable2 c out -> exists s', ac4_prefix_topk K x fuel k q s = Ok s' /\ pool_results (s2_pool s') = Ok out /\ state2_ok s') /\
        (~ reportable2 c out -> ac4_prefix_topk K x fuel k q s = UB)) /\
      (exists out, blocked_answer c bounds ts (found c last) k out /\
        (reportable2 c out -> exists s', ac4_conjunctive_topk K x fuel k q s = Ok s' /\ pool_results (s2_pool s') = Ok out /\ state2_ok s') /\
        (~ reportable2 c out -> ac4_conjunctive_topk K x fuel k q s = UB)).
  Proof.
    intros Hpos. destruct (ac4_build_ok K HK c Hwf Hfew m Hpos) as (x & bs & at_ & E & Hx). exists x. split; [exact E|].
    intros bounds. split; [exact (bounds_blocks K c x bs at_ Hx)|]. intros fuel k q ts last s Hf Hs Hst. split.
    - exact (ac4_prefix_ok K HK c Hwf x bs at_ Hx fuel Hf k q ts last Hs s Hst).
    - exact (ac4_conj_ok K HK c Hwf Hfew x bs at_ Hx fuel Hf k q ts last Hs s Hst).
  Qed.

  Hypothesis H17 : sizes_ok2 c.
  Hypothesis Hpos : some_doc_positive c.

  Lemma auto4_spec m : exists x, ac4_build K m (files_of c) = Ok x /\
    let bounds := bi_bounds K (a4_inverted x) in
    forall fuel k q ts last s, query_fuel c < fuel -> 1 <= k <= MAX_K -> query_split q ts last -> first_term_ok c last ->
      state2_ok s ->
      (first_completion_ok c ts last -> exists out, topk_answer c (prefix_match ts last) k out /\
        (fits_pool out -> exists s', ac4_prefix_topk K x fuel k q s = Ok s' /\ pool_results (s2_pool s') = Ok out /\ state2_ok s')) /\
      exists out, sound_answer c (conj_match c ts last) k out /\
        (query_exact c bounds ts last -> topk_answer c (conj_match c ts last) k out) /\
        (fits_pool out -> exists s', ac4_conjunctive_topk K x fuel k q s = Ok s' /\ pool_results (s2_pool s') = Ok out /\ state2_ok s').
  Proof.
    destruct (auto4_exact m (kept_positive c Hwf (proj2 H17) Hpos)) as (x & E & Hb & H). exists x. split; [exact E|].
    intros bounds fuel k q ts last s Hf Hk Hs Hft Hst. destruct (H fuel k q ts last s Hf Hs Hst) as [(o1 & A1 & B1 & _) (o2 & A0 & B2 & _)].
    rewrite limit_id in A1 by lia.
    pose proof (blocked_sound c Hwf _ ts (found c last) k o2 A0) as A2. destruct (Nat.eqb_spec k 0) as [Hk0|_]; [lia|].
    pose proof (fun He => blocked_exact c Hwf _ ts (found c last) Hb He k o2 ltac:(lia) A0) as C2.
    assert (L1 : length o1 <= MAX_K) by (apply proj2, proj1 in A1; lia). assert (L2 : length o2 <= MAX_K) by (apply proj2, proj1 in A2; lia).
    split.
    - intros Hfc. exists o1. split; [|intros Hfit; apply B1; exact (reportable2_all c Hwf _ o1 H17 (proj1 (proj2 (proj2 A1))) Hfit L1)].
      eapply topk_answer_ext; [|exact A1]. intros ids Hids. now apply prefix_found_match.
    - exists o2. split; [|split; [|intros Hfit; apply B2; exact (reportable2_all c Hwf _ o2 H17 (proj2 (proj2 A2)) Hfit L2)]].
      + destruct A2 as (D1 & D2 & D3). split; [exact D1|]. split; [exact D2|]. intros d t Hd. destruct (D3 d t Hd) as (ids & F1 & F2 & F3).
        exists ids. split; [exact F1|]. split; [|exact F3].
        apply conj_by_found; auto; [apply H17|eapply is_doc_in; eauto].
      + intros [Q1 Q2]. eapply topk_answer_ext; [|apply C2]; [intros ids Hids; apply conj_by_found; auto; apply H17|]. split.
        * intros t1 t2 H1 H2 H3 H4. apply Q1; auto; (refine (proj1 (found_prefix c last _ (proj1 H17) Hft _) _); [apply nth_In; lia|assumption]).
        * intros i d ids H1 H2 H3 H4 H5. apply (Q2 i d ids) with (3 := H3) (4 := H4).
          -- destruct H1 as (t & T1 & T2). exists t. split; [exact T1|now apply known_in].
          -- intros t T1 T2. apply H2; auto. apply known_all; [apply H17|]. apply nth_In. lia.
          -- exact (proj1 (conj_by_found c Hwf ts last ids (proj1 H17) Hft (is_doc_in c d ids H4)) H5).
  Qed.

  Lemma auto4_session m : exists x, ac4_build K m (files_of c) = Ok x /\
    forall fuel rs s, query_fuel c < fuel -> state2_ok s -> Forall (request_ok4 c) rs ->
    exists outs s', session (ac4_request K x fuel) (fun s => pool_results (s2_pool s)) rs s = Ok (outs, s') /\
      Forall2 (answer4 c (bi_bounds K (a4_inverted x))) rs outs /\ state2_ok s'.
  Proof.
    destruct (auto4_spec m) as (x & E & H). exists x. split; [exact E|]. intros fuel rs s Hf. apply session_gen_ok. clear rs s.
    intros r s (Hk & Hsp & Hfit) Hst. destruct (query_split_exists_unique (rq_text r)) as (ts & last & Hs & _).
    destruct (Hsp ts last Hs) as [Hft Hfc]. specialize (Hfit ts last).
    destruct (H fuel (rq_k r) (rq_text r) ts last s Hf Hk Hs Hft Hst) as [Hpre Hconj]. unfold ac4_request, answer4.
    destruct (rq_conj r).
    - destruct Hconj as (out & A & B & C). destruct C as (s' & C1 & C2 & C3); [apply (Hfit out Hs A)|]. exists out, s'. split; [exact C1|]. split; [exact C2|]. split; [exact C3|]. exists ts, last. auto.
    - destruct (Hpre (Hfc eq_refl)) as (out & A & C). destruct C as (s' & C1 & C2 & C3); [apply (Hfit out Hs (topk_sound c _ _ _ A))|].
      exists out, s'. split; [exact C1|]. split; [exact C2|]. split; [exact C3|]. exists ts, last. auto.
  Qed.
End Final4.

(** Agreement with the other types. *)
Section Agree4.
  Variable K : bcontainers.
  Hypothesis HK : bcontainers_ok K.
  Variable c : collection.
  Hypothesis Hwf : wf_collection c.

  Lemma request_ok42 r : request_ok4 c r -> request_ok2 c r.
  Proof.
    intros (Hk & Hsp & Hfit). split; [split; [exact Hk|split]|].
    - intros ts last Hs. exact (proj1 (Hsp ts last Hs)).
    - intros out (ts & last & Hs & Ha). eapply Hfit; [exact Hs|]. now apply topk_sound.
    - intros Hc ts last Hs. exact (proj2 (Hsp ts last Hs) Hc).
  Qed.

  Definition exact_request (bounds : list nat) (r : request) : Prop :=
    rq_conj r = true -> forall ts last, query_split (rq_text r) ts last -> query_exact c bounds ts last.

  Lemma answer4_to bounds r out : exact_request bounds r -> answer4 c bounds r out -> answer_to c r out.
  Proof.
    intros He (ts & last & Hs & H). exists ts, last. split; [exact Hs|]. unfold exact_request in He. destruct (rq_conj r); [|exact H].
    destruct H as [_ H]. apply H. now apply He.
  Qed.

  Lemma types_agree4 m : sizes_ok2 c -> few_postings c -> some_doc_positive c -> some_term_not_in_doc0 c ->
    exists x1 x4, ac1_build K (files_of c) = Ok x1 /\ ac4_build K m (files_of c) = Ok x4 /\
    forall fuel rs, query_fuel c < fuel -> Forall (request_ok4 c) rs -> Forall (exact_request (bi_bounds K (a4_inverted x4))) rs ->
    exists outs s1 s4,
      session (ac1_request K x1 fuel) (fun s => pool_results (s1_pool s)) rs state1_new = Ok (outs, s1) /\
      session (ac4_request K x4 fuel) (fun s => pool_results (s2_pool s)) rs state2_new = Ok (outs, s4).
  Proof.
    intros H17 Hfew Hpos H0. destruct (auto1_session K (okb_base K HK) c Hwf Hpos H0 (proj1 H17)) as (x1 & E1 & S1).
    destruct (auto4_session K HK c Hwf Hfew H17 Hpos m) as (x4 & E4 & S4).
    exists x1, x4. split; [exact E1|]. split; [exact E4|]. intros fuel rs Hf Hr Hex.
    assert (Hr1 : Forall (request_ok c) rs) by (eapply Forall_impl; [|exact Hr]; intros r A; exact (proj1 (request_ok42 r A))).
    destruct (S1 fuel rs state1_new Hf state1_new_ok Hr1) as (o1 & s1 & A1 & B1 & _).
    destruct (S4 fuel rs state2_new Hf state2_new_ok Hr) as (o4 & s4 & A4 & B4 & _).
    assert (B4' : Forall2 (answer_to c) rs o4).
    { clear -Hex B4. induction B4 as [|r o rs os H B IH]; [constructor|]. inversion Hex; subst. constructor; [eapply answer4_to; eauto|auto]. }
    assert (Hu : o4 = o1).
    { clear -Hwf B1 B4'. revert o1 B1. induction B4' as [|r o rs os H B IH]; intros o1 B1; inversion B1; subst; [reflexivity|].
      f_equal; [eapply answer_to_unique; eauto|now apply IH]. }
    subst o4. exists o1, s1, s4. auto.
  Qed.
End Agree4.
