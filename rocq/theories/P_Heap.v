(** Proofs about M_Heap. *)
From Coq Require Import Permutation Sorted.
From Verif Require Import Base M_Heap S_Heap.
Local Open Scope nat_scope.

Lemma get_some {A} (l : list A) i : i < length l -> exists x, nth_error l i = Some x /\ get l i = Ok x.
Proof.
  intros H. destruct (nth_error l i) as [x|] eqn:E.
  - exists x. split; [reflexivity|now apply get_ok].
  - apply nth_error_None in E. lia.
Qed.

Lemma upd_cons_perm {A} : forall (t : list A) b x y,
  nth_error t b = Some y -> Permutation (y :: upd t b x) (x :: t).
Proof.
  induction t as [|z t IH]; intros b x y H; [destruct b; discriminate|].
  destruct b as [|b]; cbn in *.
  - injection H as ->. apply perm_swap.
  - rewrite perm_swap. rewrite (perm_swap z x t). constructor. apply IH. exact H.
Qed.

Lemma swap_perm {A} : forall (q : list A) a b x y, a <> b ->
  nth_error q a = Some x -> nth_error q b = Some y -> Permutation (upd (upd q a y) b x) q.
Proof.
  induction q as [|z q IH]; intros a b x y Hab Ha Hb; [destruct a; discriminate|].
  destruct a as [|a], b as [|b]; cbn in *; [lia| | |].
  - injection Ha as ->. now apply upd_cons_perm.
  - injection Hb as ->. now apply upd_cons_perm.
  - constructor. apply IH; auto.
Qed.

Lemma parent_lt i : 0 < i -> (i - 1) / 2 < i.
Proof. intros H. apply Nat.div_lt_upper_bound; lia. Qed.

Lemma parent_children i p : 0 < i -> (i - 1) / 2 = p -> i = 2 * p + 1 \/ i = 2 * p + 2.
Proof.
  intros Hi H. pose proof (Nat.div_mod (i - 1) 2 ltac:(lia)) as D.
  pose proof (Nat.mod_upper_bound (i - 1) 2 ltac:(lia)). lia.
Qed.
Lemma parent_of_child p : (2 * p + 1 - 1) / 2 = p /\ (2 * p + 2 - 1) / 2 = p.
Proof.
  split.
  - replace (2 * p + 1 - 1) with (p * 2) by lia. apply Nat.div_mul. lia.
  - replace (2 * p + 2 - 1) with (1 + p * 2) by lia. rewrite Nat.div_add by lia. reflexivity.
Qed.

Section H.
  Context {A : Type}.
  Variable key : A -> nat.

  Lemma is_heap_min q x : is_heap key q -> nth_error q 0 = Some x ->
    forall i y, nth_error q i = Some y -> key x <= key y.
  Proof.
    intros Hh Hx i. induction i as [i IH] using lt_wf_ind. intros y Hy.
    destruct (Nat.eq_dec i 0) as [->|Hi]; [assert (x = y) by congruence; subst; lia|].
    pose proof (parent_lt i ltac:(lia)) as Hp.
    destruct (get_some q ((i - 1) / 2)) as [z [Hz _]].
    { apply Nat.lt_trans with i; [exact Hp|]. apply nth_error_Some. congruence. }
    transitivity (key z); [now apply (IH _ Hp)|]. apply (Hh i y z); auto. lia.
  Qed.

  Lemma is_heap_top x q : is_heap key (x :: q) -> is_min key x (x :: q).
  Proof.
    intros Hh. split; [now left|]. intros y Hy. apply In_nth_error in Hy. destruct Hy as [i Hi].
    apply (is_heap_min (x :: q) x Hh eq_refl i y Hi).
  Qed.

  Lemma heap_below q : is_heap key q -> heap_below_root key q.
  Proof. intros H i x y Hi. apply H. destruct i; [cbn in Hi; lia|lia]. Qed.

  Lemma heap_below_upd0 q x : heap_below_root key q -> heap_below_root key (upd q 0 x).
  Proof.
    intros H i y z Hi Hy Hz.
    assert (0 < i) by (destruct i; [cbn in Hi; lia|lia]).
    rewrite upd_other in Hy by lia. rewrite upd_other in Hz by lia. exact (H i y z Hi Hy Hz).
  Qed.

  Lemma heap_nil : is_heap key [].
  Proof. intros i x y _ H. destruct i; discriminate. Qed.
  Lemma heap_single x : is_heap key [x].
  Proof. intros i a b Hi H. destruct i as [|[|i]]; [lia|discriminate|discriminate]. Qed.

  Definition sink_inv (q0 : list A) (s : list A * nat) : Prop :=
    let '(q, pos) := s in
    pos < length q /\ Permutation q q0 /\
    (forall i x y, 0 < i -> (i - 1) / 2 <> pos -> nth_error q i = Some x ->
       nth_error q ((i - 1) / 2) = Some y -> key y <= key x) /\
    (forall i x y, 0 < pos -> 0 < i -> (i - 1) / 2 = pos -> nth_error q i = Some x ->
       nth_error q ((pos - 1) / 2) = Some y -> key y <= key x).

  Lemma sink_step_ok q0 s : sink_inv q0 s ->
    match sink_step key s with
    | Ok (inl s') => sink_inv q0 s' /\ length (fst s') - snd s' < length (fst s) - snd s
    | Ok (inr q) => is_heap key q /\ Permutation q q0
    | _ => False
    end.
  Proof.
    destruct s as [q pos]. intros (Hp & Hperm & Ha & Hb). cbn [sink_step fst snd].
    destruct (Nat.ltb_spec (2 * pos + 1) (length q)) as [Hc|Hc].
    2:{ split; [|exact Hperm]. intros i x y Hi Hx Hy.
        apply (Ha i x y); auto. intros E.
        apply parent_children in E; [|exact Hi].
        assert (i < length q) by (apply nth_error_Some; congruence). lia. }
    destruct (get_some q (2 * pos + 1) Hc) as (a & Ea & Ga). rewrite Ga. cbn [bind].
    destruct (get_some q pos Hp) as (x & Ex & Gx).
    (* the smaller child *)
    assert (Hchild : exists i y,
      (if 2 * pos + 1 + 1 <? length q then
         do b <- get q (2 * pos + 1 + 1); Ok (if key b <? key a then 2 * pos + 1 + 1 else 2 * pos + 1)
       else Ok (2 * pos + 1)) = Ok i /\ nth_error q i = Some y /\
      (i = 2 * pos + 1 \/ i = 2 * pos + 2) /\
      (forall j z, (j = 2 * pos + 1 \/ j = 2 * pos + 2) -> nth_error q j = Some z -> key y <= key z)).
    { destruct (Nat.ltb_spec (2 * pos + 1 + 1) (length q)) as [Hc2|Hc2].
      - destruct (get_some q (2 * pos + 1 + 1) Hc2) as (b & Eb & Gb). rewrite Gb. cbn [bind].
        replace (2 * pos + 1 + 1) with (2 * pos + 2) in * by lia.
        destruct (Nat.ltb_spec (key b) (key a)) as [L|L].
        + exists (2 * pos + 2), b. repeat split; auto. intros j z [->| ->] Hz; [|assert (z = b) by congruence; subst; lia].
          assert (z = a) by congruence. subst. lia.
        + exists (2 * pos + 1), a. repeat split; auto. intros j z [->| ->] Hz; [assert (z = a) by congruence; subst; lia|].
          assert (z = b) by congruence. subst. lia.
      - exists (2 * pos + 1), a. repeat split; auto. intros j z [->| ->] Hz; [assert (z = a) by congruence; subst; lia|].
        assert (2 * pos + 2 < length q) by (apply nth_error_Some; congruence). lia. }
    destruct Hchild as (i & y & E & Ey & Hi & Hmin).
    rewrite E. cbn [bind]. rewrite Gx. cbn [bind]. rewrite (get_ok q i y Ey). cbn [bind].
    pose proof (parent_of_child pos) as [P1 P2].
    assert (Pi : (i - 1) / 2 = pos) by (destruct Hi as [->| ->]; assumption).
    assert (Hil : i < length q) by (apply nth_error_Some; congruence).
    destruct (Nat.ltb_spec (key y) (key x)) as [L|L]; cbn [negb].
    2:{ split; [|exact Hperm]. intros j u v Hj Hu Hv.
        destruct (Nat.eq_dec ((j - 1) / 2) pos) as [Ej|Ej]; [|now apply (Ha j u v)].
        rewrite Ej in Hv. assert (v = x) by congruence. subst v.
        apply parent_children in Ej; [|exact Hj]. specialize (Hmin j u Ej Hu). lia. }
    cbn [fst snd]. rewrite !upd_length. split; [|lia].
    assert (Hne : pos <> i) by lia.
    set (q' := upd (upd q pos y) i x).
    assert (Qi : nth_error q' i = Some x) by (apply upd_same; now rewrite upd_length).
    assert (Qp : nth_error q' pos = Some y).
    { unfold q'. rewrite upd_other by lia. now apply upd_same. }
    assert (Qo : forall j, j <> pos -> j <> i -> nth_error q' j = nth_error q j).
    { intros j H1 H2. unfold q'. rewrite !upd_other by lia. reflexivity. }
    unfold sink_inv. split; [unfold q'; rewrite !upd_length; lia|].
    split; [unfold q'; rewrite <- Hperm; now apply swap_perm|].
    split.
    - intros j u v Hj Hpar Hu Hv.
      destruct (Nat.eq_dec ((j - 1) / 2) pos) as [Ej|Ej].
      + rewrite Ej in Hv. assert (v = y) by congruence. subst v.
        apply parent_children in Ej; [|exact Hj].
        destruct (Nat.eq_dec j i) as [->|Hji].
        * assert (u = x) by congruence. subst. lia.
        * rewrite Qo in Hu by lia. now apply (Hmin j u).
      + rewrite (Qo ((j - 1) / 2)) in Hv by assumption.
        destruct (Nat.eq_dec j pos) as [->|Hjp].
        * assert (u = y) by congruence. subst u.
          apply (Hb i y v); auto; lia.
        * assert (j <> i) by congruence.
          rewrite Qo in Hu by assumption. now apply (Ha j u v).
    - intros j u v _ Hj Hpar Hu Hv. rewrite Pi in Hv. assert (v = y) by congruence. subst v.
      assert (j <> i /\ j <> pos) as [N1 N2].
      { apply parent_children in Hpar; [|exact Hj]. lia. }
      rewrite Qo in Hu by lia. apply (Ha j u y); auto; [lia|]. now rewrite Hpar.
  Qed.

  Lemma heapify_ok q : heap_below_root key q ->
    exists q', heapify key q = Ok q' /\ is_heap key q' /\ Permutation q' q.
  Proof.
    intros H. unfold heapify. destruct q as [|a q].
    - exists []. repeat split; auto. apply heap_nil.
    - apply (loop_ok (sink_step key) (sink_inv (a :: q)) (fun s => length (fst s) - snd s)
               (fun r => is_heap key r /\ Permutation r (a :: q))).
      + intros s Hs. apply sink_step_ok in Hs. exact Hs.
      + unfold sink_inv. split; [cbn; lia|]. split; [reflexivity|]. split; [|intros; lia].
        intros i x y Hi Hp Hx Hy. apply (H i x y); auto. lia.
      + cbn [fst snd length]. lia.
  Qed.

  Variable std : heap_ops A.
  Hypothesis Hstd : std_heap std.

  Lemma heap_push_ok q t : is_heap key q ->
    is_heap key (heap_push key std q t) /\ Permutation (heap_push key std q t) (t :: q).
  Proof.
    intros H. unfold heap_push. destruct (Hstd key) as (Hp & _ & _). destruct (Hp q t H) as [H1 H2].
    split; [exact H1|]. rewrite H2. symmetry. apply Permutation_cons_append.
  Qed.

  Lemma heap_pop_ok x q : heap_below_root key (x :: q) ->
    exists q', heap_pop key std (x :: q) = Ok q' /\ is_heap key q' /\ Permutation q' q.
  Proof.
    intros H. unfold heap_pop. destruct (Hstd key) as (_ & Hp & _). destruct (Hp x q H) as (q' & E & H1 & H2).
    exists q'. rewrite E. rewrite removelast_last. auto.
  Qed.

  Lemma make_heap_ok q : is_heap key (make_heap std key q) /\ Permutation (make_heap std key q) q.
  Proof. apply Hstd. Qed.
End H.

(** An instance of the contract: keep the vector sorted. *)
Section Sorting.
  Context {A : Type}.
  Variable key : A -> nat.
  Fixpoint ins (x : A) (l : list A) : list A :=
    match l with
    | [] => [x]
    | y :: t => if key x <=? key y then x :: l else y :: ins x t
    end.
  Fixpoint isort (l : list A) : list A := match l with [] => [] | x :: t => ins x (isort t) end.
  Definition ksorted := StronglySorted (fun x y : A => key x <= key y).

  Lemma ins_perm x l : Permutation (ins x l) (x :: l).
  Proof.
    induction l as [|y l IH]; cbn; [reflexivity|].
    destruct (key x <=? key y); [reflexivity|]. rewrite IH. apply perm_swap.
  Qed.
  Lemma isort_perm l : Permutation (isort l) l.
  Proof. induction l as [|x l IH]; cbn; [reflexivity|]. rewrite ins_perm. now constructor. Qed.
  Lemma ins_sorted x l : ksorted l -> ksorted (ins x l).
  Proof.
    intros H. induction H as [|y l Hl IH Hy]; cbn; [repeat constructor|].
    destruct (Nat.leb_spec (key x) (key y)).
    - constructor; [constructor; assumption|]. constructor; [assumption|].
      eapply Forall_impl; [|exact Hy]. cbn. intros; lia.
    - constructor; [exact IH|]. rewrite ins_perm. constructor; [lia|exact Hy].
  Qed.
  Lemma isort_sorted l : ksorted (isort l).
  Proof. induction l as [|x l IH]; cbn; [constructor|]. now apply ins_sorted. Qed.
  Lemma ksorted_heap l : ksorted l -> is_heap key l.
  Proof.
    intros H i x y Hi Hx Hy.
    pose proof (parent_lt i Hi) as Hlt. revert Hlt Hx Hy. generalize ((i - 1) / 2) as p. clear Hi.
    intros p; revert i p; induction H as [|a l Hl IH Ha]; intros i p Hlt Hx Hy; [destruct i; discriminate|].
    destruct i as [|i]; [lia|]. cbn in Hx. destruct p as [|p].
    - injection Hy as <-. rewrite Forall_forall in Ha. apply Ha. now apply nth_error_In in Hx.
    - cbn in Hy. apply (IH i p); auto. lia.
  Qed.
End Sorting.

Definition sorting_heap (A : Type) : heap_ops A := {|
  push_heap := isort;
  pop_heap := fun key q => match q with [] => [] | x :: t => isort key t ++ [x] end;
  make_heap := isort |}.

Lemma sorting_heap_ok A : std_heap (sorting_heap A).
Proof.
  intros key. cbn. split; [|split].
  - intros q x _. split; [apply ksorted_heap, isort_sorted|apply isort_perm].
  - intros x q _. exists (isort key q). split; [reflexivity|].
    split; [apply ksorted_heap, isort_sorted|apply isort_perm].
  - intros q. split; [apply ksorted_heap, isort_sorted|apply isort_perm].
Qed.

Lemma run_op_ok {A} (key : A -> nat) std (Hstd : std_heap std) o os q :
  is_heap key q -> ops_valid (length q) (o :: os) ->
  exists q', run_op key std q o = Ok q' /\ is_heap key q' /\ op_effect key o q q' /\
             ops_valid (length q') os.
Proof.
  intros Hq Hv. destruct o as [l|x| |x|x]; cbn [run_op op_effect ops_valid] in *.
  - destruct (make_heap_ok key std Hstd l) as [H1 H2]. eexists. split; [reflexivity|].
    split; [exact H1|]. split; [exact H2|]. now rewrite (Permutation_length H2).
  - destruct (heap_push_ok key std Hstd q x Hq) as [H1 H2]. eexists. split; [reflexivity|].
    split; [exact H1|]. split; [exact H2|]. now rewrite (Permutation_length H2).
  - destruct Hv as [Hn Hv]. destruct q as [|t q]; [cbn in Hn; lia|].
    destruct (heap_pop_ok key std Hstd t q (heap_below key _ Hq)) as (q' & E & H1 & H2).
    exists q'. split; [exact E|]. split; [exact H1|]. split.
    + exists t. split; [now apply is_heap_top|]. constructor. now symmetry.
    + rewrite (Permutation_length H2). cbn in Hv. now rewrite Nat.sub_0_r in Hv.
  - destruct Hv as [Hn Hv]. destruct q as [|t q]; [cbn in Hn; lia|].
    cbn [set length Nat.ltb Nat.leb bind upd].
    destruct (heapify_ok key (x :: q)) as (q' & E & H1 & H2).
    { exact (heap_below_upd0 key (t :: q) x (heap_below key _ Hq)). }
    exists q'. split; [exact E|]. split; [exact H1|]. split.
    + exists t, q. split; [now apply is_heap_top|]. split; [reflexivity|exact H2].
    + rewrite (Permutation_length H2). exact Hv.
  - destruct Hv as [Hn Hv]. destruct q as [|t q]; [cbn in Hn; lia|].
    cbn [set length Nat.ltb Nat.leb bind upd].
    destruct (heap_pop_ok key std Hstd x q) as (q' & E & H1 & H2).
    { exact (heap_below_upd0 key (t :: q) x (heap_below key _ Hq)). }
    rewrite E. cbn [bind].
    destruct (heapify_ok key q' (heap_below key _ H1)) as (q2 & E2 & H3 & H4).
    exists q2. split; [exact E2|]. split; [exact H3|]. split.
    + exists t. split; [now apply is_heap_top|]. constructor. rewrite H4. now symmetry.
    + rewrite (Permutation_length H4), (Permutation_length H2). cbn in Hv. now rewrite Nat.sub_0_r in Hv.
Qed.

Lemma run_ops_ok {A} (key : A -> nat) std (Hstd : std_heap std) : forall os q,
  is_heap key q -> ops_valid (length q) os ->
  exists q', run_ops key std q os = Ok q' /\ is_heap key q' /\ ops_effect key os q q'.
Proof.
  induction os as [|o os IH]; intros q Hq Hv.
  - exists q. split; [reflexivity|]. split; [exact Hq|]. now constructor.
  - destruct (run_op_ok key std Hstd o os q Hq Hv) as (q1 & E & H1 & H2 & H3).
    destruct (IH q1 H1 H3) as (q2 & E2 & H4 & H5).
    exists q2. cbn [run_ops]. rewrite E. cbn [bind]. split; [exact E2|]. split; [exact H4|].
    econstructor; eassumption.
Qed.

Lemma heap_history {A} (key : A -> nat) std (Hstd : std_heap std) os :
  ops_valid 0 os ->
  exists q, run_ops key std [] os = Ok q /\ ops_effect key os [] q /\
    (q = [] \/ exists x, heap_top q = Ok x /\ is_min key x q).
Proof.
  intros Hv. destruct (run_ops_ok key std Hstd os [] (heap_nil key) Hv) as (q & E & H1 & H2).
  exists q. split; [exact E|]. split; [exact H2|].
  destruct q as [|x q]; [now left|]. right. exists x. split; [reflexivity|]. now apply is_heap_top.
Qed.
