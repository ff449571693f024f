(** The blocked index: partition, contents of the blocks, intersection; containers that keep lists. *)
From Coq Require Import Sorted Permutation.
From Verif Require Import Base M_Heap S_Heap P_Heap M_Iter S_Iter M_TopK S_TopK P_TopK M_Intersect S_Intersect P_Intersect P_ListIter.
From Verif Require Import M_Containers S_Containers P_ListContainers M_Auto S_Collection P_Collection.
From Verif Require Import M_Blocked S_Blocked P_Blocked P_BlockView P_BlockIndex P_Auto4.
Local Open Scope nat_scope.

Section Final.
  Variable K : bcontainers.
  Hypothesis HK : bcontainers_ok K.
  Variable u : nat.
  Variable P : list (list nat).
  Hypothesis Hu : (N.of_nat u < 4294967296)%N.
  Hypothesis HPne : P <> [].
  Hypothesis HP : Forall (fun l => l <> [] /\ increasing l /\ Forall (fun x => x < u) l) P.
  Hypothesis Hfew : (N.of_nat (length (concat P)) < 4294967295)%N.

  Lemma blocked_partition m : exists ii, bi_build K m u P = Ok ii /\
    (forall t, 1 <= t <= length P -> in_block (bi_bounds K ii) (block_id K ii t) t /\
       forall i, in_block (bi_bounds K ii) i t -> i = block_id K ii t) /\
    (forall i, i < length (bi_bounds K ii) ->
       exists b, open_block K ii i [] = Ok b /\ block_holds K P u (bi_bounds K ii) i b).
  Proof.
    destruct (bi_build_ok K HK u Hu P HPne HP Hfew m) as (ii & bs & at_ & E & Hok). exists ii. split; [exact E|]. split.
    - intros t Ht. rewrite (bo_bounds _ _ _ _ _ _ Hok), (block_id_eq K u P ii bs at_ Hok). split.
      + apply (block_id_in P bs 1); [apply (bo_blks _ _ _ _ _ _ Hok)|exact Ht].
      + intros i Hi. symmetry. apply (block_id_unique P bs 1); [apply (bo_blks _ _ _ _ _ _ Hok)|exact Ht|exact Hi].
    - rewrite (bo_bounds _ _ _ _ _ _ Hok). intros i Hi. rewrite map_length in Hi.
      destruct (open_block_ok K u Hu P Hfew ii bs at_ Hok i [] Hi ltac:(constructor)) as (b & Eb & [[_ [_ Hd]] Hat]). exists b. split; [exact Eb|].
      destruct (docs_at_ok K u Hu P HP Hfew ii bs at_ Hok i Hi) as (A & B & C). cbn [v_docs view_of v_set] in *.
      exists (docs_at bs i). split; [|split; [exact B|split]].
      + change (docs_at bs i) with (skipn 0 (docs_at bs i)). eapply (iter_yields (k_ops K u) u at_ (bo_cursor _ _ _ _ _ _ Hok)); [exact Hat|reflexivity].
      + intros d. rewrite (in_docs_at K u P ii bs at_ Hok i d Hi). pose proof (start_pos bs i).
        split; intros (t & Ht & H'); exists t; (split; [|exact H']); [apply in_block_start; [exact Hi|lia]|].
        apply (in_block_start bs i t Hi) in Ht. tauto.
      + intros q Hq. destruct (Hd q Hq) as (beg & E1 & E2 & R). exists beg, (set_of P (nth q (docs_at bs i) 0) (start_i bs i) (nth i (map blk_bound bs) 0)).
        split; [apply filter_seq_increasing|]. split; [|split; [exact E1|split; [exact E2|exact R]]].
        intros t. rewrite in_set_of, (in_block_start bs i t Hi). pose proof (start_pos bs i). split; [intros [? ?]; repeat split; auto; lia|tauto].
  Qed.

  Lemma blocked_intersection m : exists ii, bi_build K m u P = Ok ii /\
    forall fuel ids, ids <> [] -> increasing ids -> Forall (fun t => 1 <= t <= length P) ids -> (u + 2) * (length ids + 1) < fuel ->
    exists x r, binter_new K ii fuel ids = Ok x /\ yields (binter_stream K ii fuel) x r /\ increasing r /\
      ((forall i, ~ Forall (in_block (bi_bounds K ii) i) ids) -> common_docs P ids r) /\
      (forall i, Forall (in_block (bi_bounds K ii) i) ids ->
         forall d, In d r <-> Forall (has_term P d) ids /\ ~ leads (bi_bounds K ii) P i d).
  Proof.
    destruct (bi_build_ok K HK u Hu P HPne HP Hfew m) as (ii & bs & at_ & E & Hok). exists ii. split; [exact E|].
    intros fuel ids Hne Hinc Hran Hf.
    destruct (binter_new_ok K HK u Hu P HP Hfew ii bs at_ Hok fuel ids Hne Hinc Hran Hf) as (x & Ex & Hone & Hmany).
    rewrite (bo_bounds _ _ _ _ _ _ Hok). rewrite Forall_forall in Hran.
    assert (Hconv : forall i, Forall (in_block (map blk_bound bs) i) ids <-> Forall (fun t => bid bs t = i) ids).
    { intros i. rewrite !Forall_forall. split; intros H t Ht.
      - apply (block_id_unique P bs 1); [apply (bo_blks _ _ _ _ _ _ Hok)|now apply Hran|now apply H].
      - rewrite <- (H t Ht). apply (block_id_in P bs 1); [apply (bo_blks _ _ _ _ _ _ Hok)|now apply Hran]. }
    destruct ids as [|t0 ids0] eqn:Eids; [congruence|]. rewrite <- Eids in *.
    assert (Ht0 : 1 <= t0 <= length P) by (apply Hran; rewrite Eids; now left).
    assert (Hdec : {Forall (fun t => bid bs t = bid bs t0) ids} + {~ Forall (fun t => bid bs t = bid bs t0) ids}).
    { apply Forall_dec. intros t. apply Nat.eq_dec. }
    assert (H0 : In t0 ids) by (rewrite Eids; now left).
    destruct Hdec as [Hd|Hd].
    - set (i := bid bs t0) in *. assert (Hi : i < length bs) by (now apply (bid_lt K u P ii bs at_ Hok)).
      destruct (docs_at_ok K u Hu P HP Hfew ii bs at_ Hok i Hi) as (A & B & C).
      exists x, (filter (in_terms P ids) (skipn 1 (docs_at bs i))). split; [exact Ex|]. split; [now apply Hone|].
      split; [now apply filter_increasing, increasing_skipn1|]. split.
      + intros H. exfalso. apply (H i). now apply Hconv.
      + intros i' Hi'. assert (i' = i).
        { apply Hconv in Hi'. rewrite Forall_forall in Hi', Hd. specialize (Hi' t0 H0). specialize (Hd t0 H0). congruence. }
        subst i'. intros d. rewrite filter_In, in_terms_true.
        destruct (leads_first K u P ii bs at_ Hu HP Hfew Hok i Hi) as [L1 L2]. rewrite (bo_bounds _ _ _ _ _ _ Hok) in L1, L2. split.
        * intros [H1 H2]. split; [exact H2|]. intros L. apply L2 in L. subst d. clear -B H1.
          destruct B as [|y l B Hy]; [destruct H1|]. cbn in *. rewrite Forall_forall in Hy. specialize (Hy y H1). lia.
        * intros [H1 H2]. split; [|exact H1]. apply skipn1_in.
          -- apply (in_docs_at K u P ii bs at_ Hok i d Hi). exists t0. split; [now apply (bid_range K u P ii bs at_ Hok)|].
             rewrite Forall_forall in H1. apply H1. exact H0.
          -- intros ->. exact (H2 L1).
    - assert (Hm : forall i, ~ Forall (fun t => bid bs t = i) ids).
      { intros i H. apply Hd. rewrite Forall_forall in H. rewrite (H t0 H0). now apply Forall_forall. }
      exists x, (filter (in_terms P ids) (seq 0 u)). split; [exact Ex|]. split; [now apply Hmany|]. split; [apply filter_seq_increasing|]. split.
      + intros _. split; [apply filter_seq_increasing|]. intros d. rewrite filter_In, in_terms_true. split; [tauto|]. intros H. split; [|exact H].
        apply in_seq. rewrite Forall_forall in H. specialize (H t0 H0). unfold has_term in H.
        rewrite Forall_forall in HP. destruct (HP (nth (t0 - 1) P [])) as (_ & _ & Hlt); [apply nth_In; lia|].
        rewrite Forall_forall in Hlt. specialize (Hlt d H). lia.
      + intros i H. exfalso. apply (Hm i). now apply Hconv.
  Qed.
End Final.

(** ** Containers that keep lists *)
Fixpoint ins_key {A} (key : A -> nat) (x : A) (l : list A) : list A :=
  match l with
  | [] => [x]
  | y :: l' => if key x <=? key y then x :: l else y :: ins_key key x l'
  end.
Definition list_bcontainers : bcontainers := {|
  b_base := list_containers;
  b_position := fun it : list nat * nat => snd it;
  b_lists := fun u ls => Ok (list_iterator ls);
  b_offsets := fun ls => Ok (fun b => do l <- get ls b; Ok (get l));
  b_terms := fun ls => Ok (fun b => do l <- get ls b; Ok (get l));
  b_sort := fun A key => fold_right (ins_key key) []
|}.

Lemma ins_key_perm {A} (key : A -> nat) x l : Permutation (ins_key key x l) (x :: l).
Proof.
  induction l as [|y l IH]; cbn; [reflexivity|]. destruct (key x <=? key y); [reflexivity|]. rewrite IH. apply perm_swap.
Qed.
Lemma get_lists (ls : list (list nat)) b l : nth_error ls b = Some l ->
  exists acc, (do l <- get ls b; Ok (get l)) = Ok acc /\ forall i, i < length l -> acc i = Ok (nth i l 0).
Proof.
  intros H. exists (get l). rewrite (get_ok _ _ _ H). split; [reflexivity|]. intros i Hi.
  unfold get. now rewrite (nth_error_nth' _ 0) by exact Hi.
Qed.
Lemma list_bcontainers_ok : bcontainers_ok list_bcontainers.
Proof.
  constructor; cbn [b_base b_position b_lists b_offsets b_terms b_sort list_bcontainers].
  - exact list_containers_ok.
  - intros u ls _ _ H _. exists (list_iterator ls), (list_at u). split; [reflexivity|]. split; [apply list_cursor|].
    split; [apply list_opens; eapply Forall_impl; [|exact H]; cbn; tauto|]. intros it l p (-> & _). reflexivity.
  - intros ls _ _ _. eexists. split; [reflexivity|]. intros b l Hl. now apply get_lists.
  - intros ls _ _ _. eexists. split; [reflexivity|]. intros b l Hl. now apply get_lists.
  - intros A key l. induction l as [|x l IH]; cbn; [reflexivity|]. rewrite ins_key_perm. now constructor.
Qed.
