(** Proofs about M_TopK: heap_topk and minimal_docids::topk. *)
From Coq Require Import Permutation Sorted.
From Verif Require Import Base M_Heap S_Heap P_Heap M_Iter S_Iter M_Parse M_TopK S_TopK P_TopK.
Local Open Scope nat_scope.

(** * Emitting minima of a shrinking set, without repetition *)
Section Emit.
  Variables (n0 k : nat) (all : list nat).
  Hypothesis Hkn : k <= n0.

  (** [R]: what the queue still holds. *)
  Definition dstate (topk : list nat) (i : nat) (R : list nat) : Prop :=
    length topk = n0 /\ i < k /\ StronglySorted lt (firstn i topk) /\
    (forall x, In x all <-> In x (firstn i topk) \/ In x R) /\
    (forall x y, In x (firstn i topk) -> In y R -> x <= y).

  Definition dpost (r : nat * list nat) : Prop :=
    length (snd r) = n0 /\ fst r <= k /\ k_smallest_distinct k all (firstn (fst r) (snd r)).

  Lemma dstate_empty topk i : dstate topk i [] -> dpost (i, topk).
  Proof.
    intros (L & Hi & Hs & Ha & _). split; [exact L|]. split; [cbn; lia|]. cbn [fst snd].
    split; [exact Hs|]. split; [rewrite firstn_length; lia|]. split.
    - intros x Hx. apply Ha. now left.
    - intros y Hy. apply Ha in Hy. destruct Hy as [Hy|[]]. now left.
  Qed.

  Lemma dstate_emit topk i R R' v :
    dstate topk i R -> In v R -> (forall y, In y R -> v <= y) ->
    (forall x, In x R' -> In x R) -> (forall x, In x R -> x = v \/ In x R') ->
    exists present, binary_search (firstn i topk) v = Ok present /\
      if present then dstate topk i R'
      else set topk i v = Ok (upd topk i v) /\
           if i + 1 =? k then dpost (i + 1, upd topk i v) else dstate (upd topk i v) (i + 1) R'.
  Proof.
    intros (L & Hi & Hs & Ha & Hc) Hv Hmin Hsub Hsup.
    rewrite binary_search_ok by (now apply ss_lt_le).
    eexists. split; [reflexivity|].
    destruct (existsb (Nat.eqb v) (firstn i topk)) eqn:E.
    - apply existsb_eqb_in in E. split; [exact L|]. split; [exact Hi|]. split; [exact Hs|]. split.
      + intros x. rewrite Ha. split; intros [H|H]; auto.
        destruct (Hsup x H) as [->|H']; auto.
      + intros x y Hx Hy. apply Hc; auto.
    - split; [apply set_ok; lia|].
      assert (Hnin : ~ In v (firstn i topk)) by (intros H; apply existsb_eqb_in in H; congruence).
      assert (Hs' : StronglySorted lt (firstn i topk ++ [v])).
      { apply ssorted_app_one; [exact Hs|]. intros y Hy. pose proof (Hc y v Hy Hv).
        assert (y <> v) by (intros ->; contradiction). lia. }
      assert (Ha' : forall x, In x all <-> In x (firstn i topk ++ [v]) \/ In x R').
      { intros x. rewrite Ha, in_app_iff. cbn [In]. split.
        - intros [H|H]; [auto|]. destruct (Hsup x H) as [->|H']; auto.
        - intros [[H|[<-|[]]]|H]; auto. }
      assert (Hc' : forall x y, In x (firstn i topk ++ [v]) -> In y R' -> x <= y).
      { intros x y Hx Hy. apply in_app_iff in Hx. destruct Hx as [Hx|[<-|[]]]; [apply Hc; auto|].
        apply Hmin. auto. }
      destruct (Nat.eqb_spec (i + 1) k) as [Ek|Ek].
      + split; [cbn; now rewrite upd_length|]. split; [cbn; lia|]. cbn [fst snd].
        rewrite firstn_upd by lia.
        assert (Lo : length (firstn i topk ++ [v]) = k) by (rewrite app_length, firstn_length; cbn; lia).
        split; [exact Hs'|]. split; [lia|]. split.
        * intros x Hx. apply Ha'. now left.
        * intros y Hy. destruct (in_dec Nat.eq_dec y (firstn i topk ++ [v])) as [|Hn]; [now left|right].
          split; [exact Lo|]. intros x Hx.
          apply Ha' in Hy. destruct Hy as [Hy|Hy]; [contradiction|].
          pose proof (Hc' x y Hx Hy). assert (x <> y) by (intros ->; contradiction). lia.
      + split; [now rewrite upd_length|]. split; [lia|]. rewrite firstn_upd by lia. auto.
  Qed.
End Emit.

(** * Queues whose elements stand for lists *)
Section Queue.
  Context {E : Type}.
  Variable key : E -> nat.
  Variable den : E -> list nat -> Prop.
  Hypothesis Hden : forall e R, den e R -> In (key e) R /\ forall y, In y R -> key e <= y.

  Lemma queue_min e q R1 Rs : is_heap key (e :: q) -> Forall2 den (e :: q) (R1 :: Rs) ->
    In (key e) (concat (R1 :: Rs)) /\ forall y, In y (concat (R1 :: Rs)) -> key e <= y.
  Proof.
    intros Hh HF. inversion HF; subst. split.
    - cbn. apply in_app_iff. left. now apply Hden.
    - pose proof (is_heap_top key e q Hh) as [_ Hmin]. intros y Hy.
      apply in_concat in Hy. destruct Hy as (R & HR & Hy).
      apply (In_nth _ _ []) in HR. destruct HR as (i & Hi & <-).
      assert (Hlen : length (e :: q) = length (R1 :: Rs)) by (eapply Forall2_len; eauto).
      destruct (get_some (e :: q) i) as (f & Hf & _); [lia|].
      transitivity (key f); [apply Hmin; eapply nth_error_In; exact Hf|].
      assert (Hd : den f (nth i (R1 :: Rs) [])).
      { clear -HF Hf Hi. revert Hf Hi. generalize (R1 :: Rs) as L, HF. generalize (e :: q) as Q.
        intros Q L HF2. revert i. induction HF2 as [|a b Q L Hab HF2 IH]; intros i Hf Hi; [destruct i; discriminate|].
        destruct i as [|i]; cbn in *; [now injection Hf as <-|]. apply IH; auto. lia. }
      exact (proj2 (Hden f _ Hd) y Hy).
  Qed.

  Lemma Forall2_perm q q' Rs : Permutation q' q -> Forall2 den q Rs ->
    exists Rs', Permutation Rs Rs' /\ Forall2 den q' Rs'.
  Proof. intros P H. apply (Permutation_Forall2 (Permutation_sym P) H). Qed.
End Queue.

Lemma perm_concat_in {A} (Rs Rs' : list (list A)) x : Permutation Rs Rs' -> In x (concat Rs) <-> In x (concat Rs').
Proof.
  intros P. rewrite !in_concat. split; intros (y & Hy & Hx); exists y; split; auto; [now rewrite <- P|now rewrite P].
Qed.
Lemma perm_concat_length {A} (Rs Rs' : list (list A)) : Permutation Rs Rs' -> length (concat Rs) = length (concat Rs').
Proof.
  intros P. apply Permutation_length. induction P; cbn; auto.
  - now apply Permutation_app_head.
  - rewrite !app_assoc. apply Permutation_app_tail, Permutation_app_comm.
  - etransitivity; eassumption.
Qed.

Lemma skipn_head (l : list nat) p d : p < length l -> skipn p l = nth p l d :: skipn (p + 1) l.
Proof.
  revert p; induction l as [|x l IH]; intros p H; [cbn in H; lia|].
  destruct p as [|p]; [reflexivity|]. cbn in *. apply IH. lia.
Qed.

Lemma increasing_skipn l p : increasing l -> increasing (skipn p l).
Proof.
  intros H. revert p; induction H as [|x l H IH Hx]; intros p; [rewrite skipn_nil; constructor|].
  destruct p as [|p]; [now constructor|]. cbn. apply IH.
Qed.

Lemma increasing_hd_min l p u y : increasing l -> p < length l -> In y (skipn p l) -> nth p l u <= y.
Proof.
  intros H Hp Hy. pose proof (increasing_skipn l p H) as Hs. rewrite (skipn_head l p u Hp) in *.
  inversion Hs; subst. destruct Hy as [<-|Hy]; [lia|]. rewrite Forall_forall in H3. specialize (H3 y Hy). lia.
Qed.

(** * heap_topk *)
Section HeapTopK.
  Context {It : Type}.
  Variable ops : iter_ops It.
  Variable u : nat.
  Variable at_ : It -> list nat -> nat -> Prop.
  Hypothesis Hcur : cursor ops u at_.
  Variable iterator : nat -> res It.
  Variable postings : list (list nat).
  Hypothesis Hopen : opens at_ iterator postings.
  Variable std : heap_ops It.
  Hypothesis Hstd : std_heap std.
  Variables k n0 : nat.
  Hypothesis Hkn : k <= n0.

  Definition den_it (it : It) (R : list nat) : Prop :=
    exists l p, at_ it l p /\ p < length l /\ R = skipn p l.

  Lemma den_it_min it R : den_it it R -> In (i_deref ops it) R /\ forall y, In y R -> i_deref ops it <= y.
  Proof.
    intros (l & p & H & Hp & ->). destruct (Hcur it l p H) as (Hi & _ & _ & _ & _ & _ & Hd & _).
    rewrite Hd. split.
    - rewrite (skipn_head l p u Hp). now left.
    - intros y Hy. now apply increasing_hd_min.
  Qed.

  Lemma opens_nonempty t l : nth_error postings t = Some l -> l <> [] /\ increasing l.
  Proof.
    intros H. destruct (Hopen t l H) as (it & _ & Ha). destruct (Hcur it l 0 Ha) as (A & _ & _ & B & _). auto.
  Qed.

  Lemma open_all_ok : forall n t, 1 <= t -> t + n <= length postings + 1 ->
    exists its, open_all iterator t n = Ok its /\
      Forall2 den_it its (firstn n (skipn (t - 1) postings)).
  Proof.
    induction n as [|n IH]; intros t H1 H2; [exists []; split; [reflexivity|constructor]|].
    cbn [open_all]. destruct t as [|t]; [lia|].
    destruct (get_some postings t) as (l & El & _); [lia|].
    destruct (Hopen t l El) as (it & Ei & Ha).
    rewrite Ei. cbn [bind]. destruct (IH (S t + 1)) as (its & E & HF); [lia|lia|].
    rewrite E. cbn [bind]. eexists. split; [reflexivity|].
    replace (S t - 1) with t by lia. replace (S t + 1 - 1) with (t + 1) in HF by lia.
    assert (Es : skipn t postings = l :: skipn (t + 1) postings).
    { clear -El. revert t El. induction postings as [|x ps IHp]; intros t El; [destruct t; discriminate|].
      destruct t as [|t]; cbn in *; [now injection El as ->|now apply IHp]. }
    rewrite Es. cbn [firstn]. constructor; [|exact HF].
    exists l, 0. split; [exact Ha|]. split; [|reflexivity].
    destruct (opens_nonempty t l El). destruct l; [congruence|]. cbn. lia.
  Qed.

  (** Advancing the top and repairing the heap. *)
  Lemma advance_ok {E} (key : E -> nat) (stdE : heap_ops E) (HstdE : std_heap stdE)
    (den : E -> list nat -> Prop) e q Rs (hn : bool) e' R' :
    is_heap key (e :: q) -> Forall2 den q Rs ->
    (hn = true -> den e' R') -> (hn = false -> R' = []) ->
    exists q' Rs', (do q1 <- (if hn then Ok (upd (e :: q) 0 e') else heap_pop key stdE (upd (e :: q) 0 e'));
                    heapify key q1) = Ok q' /\
      is_heap key q' /\ Forall2 den q' Rs' /\
      (forall x, In x (concat Rs') <-> In x R' \/ In x (concat Rs)) /\
      length (concat Rs') = length R' + length (concat Rs).
  Proof.
    intros Hh HF Ht Hf. cbn [upd].
    assert (Hb : heap_below_root key (e' :: q)) by exact (heap_below_upd0 key (e :: q) e' (heap_below _ _ Hh)).
    destruct hn.
    - cbn [bind]. destruct (heapify_ok key _ Hb) as (q' & Eq & H1 & P1).
      destruct (Forall2_perm den (e' :: q) q' (R' :: Rs) P1) as (Rs' & P2 & HF2).
      { constructor; auto. }
      exists q', Rs'. split; [exact Eq|]. split; [exact H1|]. split; [exact HF2|]. split.
      + intros x. rewrite <- (perm_concat_in _ _ x P2). cbn. apply in_app_iff.
      + rewrite <- (perm_concat_length _ _ P2). cbn. apply app_length.
    - destruct (heap_pop_ok key stdE HstdE e' q Hb) as (q1 & E1 & H1 & P1). rewrite E1. cbn [bind].
      destruct (heapify_ok key _ (heap_below _ _ H1)) as (q' & Eq & H2 & P2).
      destruct (Forall2_perm den q q' Rs (Permutation_trans P2 P1) HF) as (Rs' & P3 & HF3).
      rewrite (Hf eq_refl).
      exists q', Rs'. split; [exact Eq|]. split; [exact H2|]. split; [exact HF3|]. split.
      + intros x. rewrite <- (perm_concat_in _ _ x P3). cbn. tauto.
      + now rewrite <- (perm_concat_length _ _ P3).
  Qed.

  (** What next() does to the list an iterator stands for. *)
  Lemma next_ok it l p : at_ it l p -> p < length l ->
    exists it', i_next ops it = Ok it' /\ i_has_next ops it' = (p + 1 <? length l) /\
      at_ it' l (p + 1) /\
      (i_has_next ops it' = true -> den_it it' (skipn (p + 1) l)) /\
      (i_has_next ops it' = false -> skipn (p + 1) l = []).
  Proof.
    intros Ha Hp. destruct (Hcur it l p Ha) as (_ & _ & _ & _ & _ & _ & _ & Hn & _).
    destruct (Hn Hp) as (it' & E & Ha'). exists it'. split; [exact E|].
    destruct (Hcur it' l (p + 1) Ha') as (_ & _ & _ & _ & _ & Hh & _).
    split; [exact Hh|]. split; [exact Ha'|]. rewrite Hh. split.
    - intros L. apply Nat.ltb_lt in L. exists l, (p + 1). auto.
    - intros L. apply Nat.ltb_ge in L. now apply skipn_all2.
  Qed.

  Definition ht_inv (all : list nat) (n : nat) (s : list It * list nat * nat) : Prop :=
    let '(q, topk, i) := s in
    is_heap (i_deref ops) q /\
    exists Rs, Forall2 den_it q Rs /\ dstate n0 k all topk i (concat Rs) /\ length (concat Rs) = n.

  Lemma ht_step_ok all n s : ht_inv all n s ->
    match heap_topk_step ops std k s with
    | Ok (inl s') => exists n', n' < n /\ ht_inv all n' s'
    | Ok (inr r) => dpost n0 k all r
    | _ => False
    end.
  Proof.
    destruct s as [[q topk] i]. intros (Hh & Rs & HF & Hd & Hn). cbn [heap_topk_step].
    destruct q as [|z q].
    { inversion HF; subst. now apply dstate_empty. }
    inversion HF as [|? R1 ? Rs1 Hz HF1]; subst.
    destruct (queue_min (i_deref ops) den_it den_it_min z q R1 Rs1 Hh HF) as [Hv Hmin].
    destruct Hz as (l & p & Ha & Hp & ->).
    destruct (next_ok z l p Ha Hp) as (z' & Ez & _ & Ha' & Ht & Hf).
    destruct (advance_ok (i_deref ops) std Hstd den_it z q Rs1 (i_has_next ops z') z' (skipn (p + 1) l)
                Hh HF1 Ht Hf) as (q' & Rs' & Eq & H1 & H2 & H3 & H4).
    assert (Hdz : i_deref ops z = nth p l u).
    { destruct (Hcur z l p Ha) as (_ & _ & _ & _ & _ & _ & D & _). exact D. }
    set (v := i_deref ops z) in *.
    assert (HR : forall x, In x (concat (skipn p l :: Rs1)) <-> x = v \/ In x (concat Rs')).
    { intros x. rewrite H3. cbn [concat]. rewrite (skipn_head l p u Hp), in_app_iff, Hdz. cbn [In].
      split; [intros [[<-|H]|H]; auto|intros [->|[H|H]]; auto]. }
    destruct (dstate_emit n0 k all Hkn topk i _ (concat Rs') v Hd Hv Hmin) as (present & Eb & Hcase).
    { intros x Hx. apply HR. now right. }
    { intros x Hx. now apply HR. }
    rewrite Eb. cbn [bind].
    assert (Hdec : length (concat Rs') < length (concat (skipn p l :: Rs1))).
    { rewrite H4. cbn [concat]. rewrite app_length, !skipn_length. lia. }
    destruct present.
    - cbn [bind negb andb]. rewrite Ez. cbn [bind].
      destruct (bind_ok _ _ _ Eq) as (q1 & Eq1 & Eq2). rewrite Eq1. cbn [bind]. rewrite Eq2. cbn [bind].
      exists (length (concat Rs')). split; [exact Hdec|]. split; [exact H1|]. exists Rs'. auto.
    - destruct Hcase as [Es Hcase]. rewrite Es. cbn [bind negb andb].
      destruct (i + 1 =? k); [exact Hcase|].
      rewrite Ez. cbn [bind].
      destruct (bind_ok _ _ _ Eq) as (q1 & Eq1 & Eq2). rewrite Eq1. cbn [bind]. rewrite Eq2. cbn [bind].
      exists (length (concat Rs')). split; [exact Hdec|]. split; [exact H1|]. exists Rs'. auto.
  Qed.

  Lemma heap_topk_ok fuel a b topk :
    1 <= a -> a <= b + 1 -> b <= length postings -> 1 <= k -> length topk = n0 ->
    length (concat postings) < fuel ->
    exists r topk', heap_topk ops iterator std k fuel a b topk = Ok (r, topk') /\
      length topk' = n0 /\ r <= k /\
      k_smallest_distinct k (concat (firstn (b + 1 - a) (skipn (a - 1) postings))) (firstn r topk').
  Proof.
    intros Ha Hab Hb Hk L Hf. unfold heap_topk.
    destruct (open_all_ok (b + 1 - a) a Ha ltac:(lia)) as (its & E & HF). rewrite E. cbn [bind].
    set (sel := firstn (b + 1 - a) (skipn (a - 1) postings)) in *.
    destruct (make_heap_ok (i_deref ops) std Hstd its) as [H1 P1].
    destruct (Forall2_perm den_it its _ sel P1 HF) as (Rs & P2 & HF2).
    destruct (loop_ok_n (heap_topk_step ops std k) (ht_inv (concat sel)) (dpost n0 k (concat sel))) with
      (fuel := fuel) (n := length (concat Rs)) (s := (make_heap std (i_deref ops) its, topk, 0)) as (r & Er & Hpost).
    - intros n s Hs. exact (ht_step_ok (concat sel) n s Hs).
    - split; [exact H1|]. exists Rs. split; [exact HF2|]. split; [|reflexivity].
      split; [exact L|]. split; [lia|]. cbn [firstn]. split; [constructor|]. split; [|intros x y []].
      intros x. rewrite (perm_concat_in _ _ x P2). cbn. tauto.
    - rewrite <- (perm_concat_length _ _ P2). unfold sel.
      rewrite <- (firstn_skipn (a - 1) postings), concat_app, app_length in Hf.
      rewrite <- (firstn_skipn (b + 1 - a) (skipn (a - 1) postings)), concat_app, app_length in Hf.
      lia.
    - destruct r as [r t]. exists r, t. split; [exact Er|]. exact Hpost.
  Qed.
End HeapTopK.

(** * minimal_docids::topk *)
Section MinimalDocIds.
  Context {It : Type}.
  Variable ops : iter_ops It.
  Variable u : nat.
  Variable at_ : It -> list nat -> nat -> Prop.
  Hypothesis Hcur : cursor ops u at_.
  Variable iterator : nat -> res It.
  Variable postings : list (list nat).
  Hypothesis Hopen : opens at_ iterator postings.
  Variable std : heap_ops (open_range (It := It)).
  Hypothesis Hstd : std_heap std.
  Variables k n0 : nat.
  Hypothesis Hkn : k <= n0.

  (** m_list holds the first doc id of every list. *)
  Let l : list nat := map (fun p => hd 0 p) postings.
  Variable acc : nat -> res nat.
  Variable rmq : nat -> nat -> res nat.
  Hypothesis Hacc : forall i, i < length l -> acc i = Ok (nth i l 0).
  Hypothesis Hrmq : rmq_ok l rmq.

  Definition lists (a b : nat) : list (list nat) := firstn (b - a) (skipn a postings).

  Lemma lists_split a p b : a <= p -> p < b -> b <= length postings ->
    lists a b = lists a p ++ nth p postings [] :: lists (p + 1) b.
  Proof.
    intros H1 H2 H3. unfold lists.
    rewrite <- (firstn_skipn (p - a) (firstn (b - a) (skipn a postings))).
    rewrite firstn_firstn. replace (Nat.min (p - a) (b - a)) with (p - a) by lia. f_equal.
    rewrite skipn_firstn_comm, skipn_skipn. replace (p - a + a) with p by lia.
    replace (b - a - (p - a)) with (S (b - (p + 1))) by lia.
    assert (Es : skipn p postings = nth p postings [] :: skipn (p + 1) postings).
    { assert (Hp : p < length postings) by lia. clear -Hp. revert p Hp.
      induction postings as [|x ps IH]; intros p Hp; [cbn in Hp; lia|].
      destruct p as [|p]; [reflexivity|]. cbn in *. apply IH. lia. }
    rewrite Es. reflexivity.
  Qed.

  Lemma lists_nil a : lists a a = [].
  Proof. unfold lists. now rewrite Nat.sub_diag. Qed.

  Lemma lists_in a b x : b <= length postings -> In x (concat (lists a b)) ->
    exists t, a <= t < b /\ In x (nth t postings []).
  Proof.
    intros Hb H. apply in_concat in H. destruct H as (p & Hp & Hx).
    apply (In_nth _ _ []) in Hp. destruct Hp as (i & Hi & <-).
    unfold lists in *. rewrite firstn_length, skipn_length in Hi.
    rewrite nth_firstn, nth_skipn in Hx by lia. exists (a + i). split; [lia|exact Hx].
  Qed.

  Lemma posting_ok t : t < length postings ->
    let p := nth t postings [] in
    p <> [] /\ increasing p /\ nth t l 0 = hd 0 p /\ exists it, iterator t = Ok it /\ at_ it p 0.
  Proof.
    intros Ht p. destruct (get_some postings t Ht) as (p' & Ep & _).
    assert (p' = p) as -> by (unfold p; symmetry; now apply nth_error_nth).
    destruct (Hopen t p Ep) as (it & E & Ha).
    destruct (Hcur it p 0 Ha) as (A & _ & _ & B & _).
    split; [exact B|]. split; [exact A|]. split; [|eauto].
    exact (map_nth (fun p => hd 0 p) postings [] t).
  Qed.

  Definition den_or (e : open_range (It := It)) (R : list nat) : Prop :=
    match snd e with
    | Some it => den_it at_ it R
    | None => wf_range l (fst e) /\ R = concat (lists (sr_begin (fst e)) (sr_end (fst e) + 1))
    end.

  Lemma len_l : length l = length postings.
  Proof. apply map_length. Qed.

  Lemma den_or_min e R : den_or e R -> In (minimum ops e) R /\ forall y, In y R -> minimum ops e <= y.
  Proof.
    destruct e as [s [it|]]; unfold den_or, minimum; cbn [snd fst].
    - intros H. exact (den_it_min ops u at_ Hcur it R H).
    - intros [(Hm & He & Ev) ->]. rewrite len_l in He. destruct Hm as (Hp & Hmin & _).
      destruct (posting_ok (sr_min_pos s) ltac:(lia)) as (Hne & Hinc & Eh & _).
      split.
      + rewrite (lists_split _ (sr_min_pos s)) by lia. rewrite concat_app. cbn [concat].
        rewrite !in_app_iff. right. left. rewrite Ev, Eh.
        destruct (nth (sr_min_pos s) postings []); [congruence|now left].
      + intros y Hy. apply lists_in in Hy; [|lia]. destruct Hy as (t & Ht & Hy).
        destruct (posting_ok t ltac:(lia)) as (Hne2 & Hinc2 & Eh2 & _).
        specialize (Hmin t ltac:(lia)). rewrite Ev.
        transitivity (nth t l 0); [exact Hmin|]. rewrite Eh2.
        destruct (nth t postings []) as [|h tl]; [congruence|]. cbn [hd].
        inversion Hinc2; subst. destruct Hy as [<-|Hy]; [lia|]. rewrite Forall_forall in H2.
        specialize (H2 y Hy). lia.
  Qed.

  Definition orv (o : option scored_range) : list nat :=
    match o with None => [] | Some s => concat (lists (sr_begin s) (sr_end s + 1)) end.

  Lemma opt_push_closed_ok q Rs o :
    is_heap (minimum ops) q -> Forall2 den_or q Rs ->
    match o with Some s => wf_range l s | None => True end ->
    exists Rs', is_heap (minimum ops) (opt_push_closed ops std q o) /\
      Forall2 den_or (opt_push_closed ops std q o) Rs' /\
      (forall x, In x (concat Rs') <-> In x (orv o) \/ In x (concat Rs)) /\
      length (concat Rs') = length (orv o) + length (concat Rs).
  Proof.
    intros H1 H2 H3. destruct o as [s|]; cbn [opt_push_closed orv].
    - destruct (heap_push_ok (minimum ops) std Hstd q (s, None) H1) as [A B].
      destruct (Forall2_perm den_or ((s, None) :: q) _ (orv (Some s) :: Rs) B) as (Rs' & P & HF).
      { constructor; [|exact H2]. split; [exact H3|reflexivity]. }
      exists Rs'. split; [exact A|]. split; [exact HF|]. split.
      + intros x. rewrite <- (perm_concat_in _ _ x P). cbn. apply in_app_iff.
      + rewrite <- (perm_concat_length _ _ P). cbn. apply app_length.
    - exists Rs. split; [exact H1|]. split; [exact H2|]. split; [intros x; cbn; tauto|reflexivity].
  Qed.

  Definition md_inv (all : list nat) (n : nat) (s : list open_range * list nat * nat) : Prop :=
    let '(q, topk, i) := s in
    is_heap (minimum ops) q /\
    exists Rs, Forall2 den_or q Rs /\ dstate n0 k all topk i (concat Rs) /\ length (concat Rs) = n.

  Lemma md_step_ok all n s : md_inv all n s ->
    match minimal_step acc (length l) rmq ops iterator std k s with
    | Ok (inl s') => exists n', n' < n /\ md_inv all n' s'
    | Ok (inr r) => dpost n0 k all r
    | _ => False
    end.
  Proof.
    destruct s as [[q topk] i]. intros (Hh & Rs & HF & Hd & Hn). cbn [minimal_step].
    destruct q as [|e q].
    { inversion HF; subst. now apply dstate_empty. }
    inversion HF as [|? R1 ? Rs1 Hz HF1]; subst.
    destruct (queue_min (minimum ops) den_or den_or_min e q R1 Rs1 Hh HF) as [Hv Hmin].
    (* the rest of the iteration: a new queue that lost one occurrence of the minimum *)
    assert (Hrest : exists q' Rs',
      match snd e with
      | Some it =>
          do it <- i_next ops it;
          let q := upd (e :: q) 0 (fst e, Some it) in
          do q <- (if i_has_next ops it then Ok q else heap_pop (minimum ops) std q);
          heapify (minimum ops) q
      | None =>
          do it <- iterator (sr_min_pos (fst e));
          do it <- i_next ops it;
          let q := upd (e :: q) 0 (fst e, Some it) in
          do q <- (if i_has_next ops it then Ok q else heap_pop (minimum ops) std q);
          do q <- heapify (minimum ops) q;
          do l' <- left_range acc rmq (sr_begin (fst e)) (sr_min_pos (fst e));
          let q := opt_push_closed ops std q l' in
          do r' <- right_range acc (length l) rmq (sr_end (fst e)) (sr_min_pos (fst e));
          let q := opt_push_closed ops std q r' in
          Ok q
      end = Ok q' /\ is_heap (minimum ops) q' /\ Forall2 den_or q' Rs' /\
      (forall x, In x (concat (R1 :: Rs1)) <-> x = minimum ops e \/ In x (concat Rs')) /\
      length (concat Rs') < length (concat (R1 :: Rs1))).
    { destruct e as [s [it|]]; cbn [snd fst].
      - destruct Hz as (li & p & Ha & Hp & ->).
        destruct (next_ok ops u at_ Hcur it li p Ha Hp) as (z' & Ez & _ & Ha' & Ht & Hf).
        rewrite Ez. cbn [bind]. cbv zeta.
        destruct (advance_ok (minimum ops) std Hstd den_or (s, Some it) q Rs1 (i_has_next ops z')
                   (s, Some z') (skipn (p + 1) li) Hh HF1) as (q' & Rs' & Eq & H1 & H2 & H3 & H4).
        { intros Hb. exact (Ht Hb). }
        { exact Hf. }
        exists q', Rs'. split; [exact Eq|]. split; [exact H1|]. split; [exact H2|].
        assert (Hdz : minimum ops (s, Some it) = nth p li u).
        { unfold minimum. cbn. destruct (Hcur it li p Ha) as (_ & _ & _ & _ & _ & _ & D & _). exact D. }
        split.
        + intros x. rewrite H3, Hdz. cbn [concat]. rewrite (skipn_head li p u Hp), in_app_iff. cbn [In].
          split; [intros [[<-|H]|H]; auto|intros [->|[H|H]]; auto].
        + rewrite H4. cbn [concat]. rewrite app_length, !skipn_length. lia.
      - destruct Hz as [Hw ->]. cbn [fst] in Hw.
        pose proof Hw as ((Hp & _) & He & Ev). rewrite len_l in He. cbn [fst].
        destruct (posting_ok (sr_min_pos s) ltac:(lia)) as (Hne & Hinc & Eh & it & Ei & Ha).
        set (li := nth (sr_min_pos s) postings []) in *.
        assert (Hli : 0 < length li) by (destruct li; [congruence|cbn; lia]).
        rewrite Ei. cbn [bind].
        destruct (next_ok ops u at_ Hcur it li 0 Ha Hli) as (z' & Ez & _ & Ha' & Ht & Hf).
        rewrite Ez. cbn [bind]. cbv zeta.
        destruct (advance_ok (minimum ops) std Hstd den_or (s, None) q Rs1 (i_has_next ops z')
                   (s, Some z') (skipn (0 + 1) li) Hh HF1) as (q1 & Rs' & Eq & H1 & H2 & H3 & H4).
        { intros Hb. exact (Ht Hb). }
        { exact Hf. }
        destruct (bind_ok _ _ _ Eq) as (q0 & Eq1 & Eq2). rewrite Eq1. cbn [bind]. rewrite Eq2. cbn [bind].
        pose proof len_l as Hll.
        destruct (left_range_ok acc l rmq Hacc Hrmq (sr_begin s) (sr_min_pos s)) as (lo & El & Hl); [lia|lia|].
        destruct (right_range_ok acc l rmq Hacc Hrmq (sr_end s) (sr_min_pos s)) as (ro & Er & Hr); [lia|lia|].
        rewrite El. cbn [bind]. rewrite Er. cbn [bind].
        destruct (opt_push_closed_ok q1 Rs' lo H1 H2) as (Rs2 & A1 & A2 & A3 & A4).
        { destruct lo; [apply Hl|exact I]. }
        destruct (opt_push_closed_ok _ Rs2 ro A1 A2) as (Rs3 & B1 & B2 & B3 & B4).
        { destruct ro; [apply Hr|exact I]. }
        eexists _, Rs3. split; [reflexivity|]. split; [exact B1|]. split; [exact B2|].
        assert (El' : orv lo = concat (lists (sr_begin s) (sr_min_pos s))).
        { destruct lo as [x|]; cbn [orv].
          - destruct Hl as (_ & _ & E1 & E2). now rewrite E1, E2.
          - rewrite Hl. now rewrite lists_nil. }
        assert (Er' : orv ro = concat (lists (sr_min_pos s + 1) (sr_end s + 1))).
        { destruct ro as [x|]; cbn [orv].
          - destruct Hr as (_ & _ & E1 & E2). now rewrite E1, E2.
          - rewrite Hr. now rewrite lists_nil. }
        assert (Hdz : minimum ops (s, None) = nth 0 li u).
        { unfold minimum. cbn. rewrite Ev, Eh. destruct li; [congruence|reflexivity]. }
        assert (Esp : concat (lists (sr_begin s) (sr_end s + 1)) = orv lo ++ li ++ orv ro).
        { rewrite (lists_split _ (sr_min_pos s)) by lia. rewrite concat_app. cbn [concat]. now rewrite El', Er'. }
        split.
        + intros x. rewrite B3, A3, H3, Hdz. cbn [concat]. rewrite Esp, !in_app_iff.
          replace li with (nth 0 li u :: skipn 1 li) at 1 by (symmetry; apply (skipn_head li 0 u Hli)).
          cbn [In Nat.add]. split.
          * intros [[H|[[<-|H]|H]]|H]; tauto.
          * intros [->|[H|[H|[H|H]]]]; tauto.
        + cbn [concat]. rewrite Esp, B4, A4, H4, !app_length, skipn_length. lia. }
    destruct Hrest as (q' & Rs' & Eq & H1 & H2 & H3 & H4).
    destruct (dstate_emit n0 k all Hkn topk i _ (concat Rs') (minimum ops e) Hd Hv Hmin) as (present & Eb & Hcase).
    { intros x Hx. apply H3. now right. }
    { intros x Hx. now apply H3. }
    rewrite Eb. cbn [bind].
    assert (Hfin : forall topk' i', dstate n0 k all topk' i' (concat Rs') ->
      match
        match snd e with
        | Some it =>
            do it <- i_next ops it;
            let q := upd (e :: q) 0 (fst e, Some it) in
            do q <- (if i_has_next ops it then Ok q else heap_pop (minimum ops) std q);
            do q <- heapify (minimum ops) q;
            Ok (inl (q, topk', i'))
        | None =>
            do it <- iterator (sr_min_pos (fst e));
            do it <- i_next ops it;
            let q := upd (e :: q) 0 (fst e, Some it) in
            do q <- (if i_has_next ops it then Ok q else heap_pop (minimum ops) std q);
            do q <- heapify (minimum ops) q;
            do l' <- left_range acc rmq (sr_begin (fst e)) (sr_min_pos (fst e));
            let q := opt_push_closed ops std q l' in
            do r' <- right_range acc (length l) rmq (sr_end (fst e)) (sr_min_pos (fst e));
            let q := opt_push_closed ops std q r' in
            Ok (inl (q, topk', i'))
        end
      with
      | Ok (inl s') => exists n', n' < length (concat (R1 :: Rs1)) /\ md_inv all n' s'
      | Ok (inr r) => dpost n0 k all r
      | _ => False
      end).
    { intros topk' i' Hd'.
      match goal with |- match ?X with _ => _ end => assert (EX : X = Ok (inl (q', topk', i'))) end.
      { clear -Eq. destruct (snd e) as [it|].
        - destruct (bind_ok _ _ _ Eq) as (it1 & E1 & F1). rewrite E1. cbn [bind]. cbv zeta in F1 |- *.
          destruct (bind_ok _ _ _ F1) as (q1 & E2 & F2). rewrite E2. cbn [bind]. rewrite F2. reflexivity.
        - destruct (bind_ok _ _ _ Eq) as (it0 & E0 & F0). rewrite E0. cbn [bind].
          destruct (bind_ok _ _ _ F0) as (it1 & E1 & F1). rewrite E1. cbn [bind]. cbv zeta in F1 |- *.
          destruct (bind_ok _ _ _ F1) as (q1 & E2 & F2). rewrite E2. cbn [bind].
          destruct (bind_ok _ _ _ F2) as (q2 & E3 & F3). rewrite E3. cbn [bind].
          destruct (bind_ok _ _ _ F3) as (l3 & E4 & F4). rewrite E4. cbn [bind].
          destruct (bind_ok _ _ _ F4) as (r5 & E5 & F5). rewrite E5. cbn [bind]. now injection F5 as ->. }
      rewrite EX. exists (length (concat Rs')). split; [exact H4|]. split; [exact H1|]. exists Rs'. auto. }
    destruct present.
    - cbn [bind negb andb]. apply Hfin. exact Hcase.
    - destruct Hcase as [Es Hcase]. rewrite Es. cbn [bind negb andb].
      destruct (i + 1 =? k); [exact Hcase|]. apply Hfin. exact Hcase.
  Qed.

  Lemma minimal_topk_ok fuel a b topk :
    a < b -> b <= length postings -> 1 <= k -> length topk = n0 ->
    length (concat postings) < fuel ->
    exists r topk', minimal_topk acc (length l) rmq ops iterator std k fuel a b topk = Ok (r, topk') /\
      length topk' = n0 /\ r <= k /\
      k_smallest_distinct k (concat (lists a b)) (firstn r topk').
  Proof.
    intros Hab Hb Hk L Hf. unfold minimal_topk.
    destruct (whole_range_ok acc l rmq Hacc Hrmq a b Hab) as (s & E & Hs & Eb & Ee); [rewrite len_l; lia|].
    rewrite E. cbn [bind].
    destruct (heap_push_ok (minimum ops) std Hstd [] (s, None) (heap_nil _)) as [H1 P1].
    destruct (Forall2_perm den_or [(s, None)] _ [concat (lists a b)] P1) as (Rs & P2 & HF2).
    { constructor; [|constructor]. split; [exact Hs|]. cbn [fst]. now rewrite Eb, Ee. }
    destruct (loop_ok_n (minimal_step acc (length l) rmq ops iterator std k) (md_inv (concat (lists a b)))
      (dpost n0 k (concat (lists a b)))) with
      (fuel := fuel) (n := length (concat Rs)) (s := (heap_push (minimum ops) std [] (s, None), topk, 0)) as (r & Er & Hpost).
    - intros n st Hst. exact (md_step_ok (concat (lists a b)) n st Hst).
    - split; [exact H1|]. exists Rs. split; [exact HF2|]. split; [|reflexivity].
      split; [exact L|]. split; [lia|]. cbn [firstn]. split; [constructor|]. split; [|intros x y []].
      intros x. rewrite <- (perm_concat_in _ _ x P2). cbn. rewrite app_nil_r. tauto.
    - rewrite <- (perm_concat_length _ _ P2). cbn [concat]. rewrite app_nil_r. unfold lists.
      rewrite <- (firstn_skipn a postings), concat_app, app_length in Hf.
      rewrite <- (firstn_skipn (b - a) (skipn a postings)), concat_app, app_length in Hf. lia.
    - destruct r as [r t]. exists r, t. split; [exact Er|]. exact Hpost.
  Qed.
End MinimalDocIds.

Lemma minimal_topk_spec {It : Type} (ops : iter_ops It) u at_ iterator postings acc rmq std k a b fuel topk :
  cursor ops u at_ -> opens at_ iterator postings ->
  (let l := map (fun p => hd 0 p) postings in
   (forall i, i < length l -> acc i = Ok (nth i l 0)) /\ rmq_ok l rmq) ->
  std_heap std ->
  a < b -> b <= length postings -> 1 <= k -> k <= length topk -> length (concat postings) < fuel ->
  exists r topk',
    minimal_topk acc (length postings) rmq ops iterator std k fuel a b topk = Ok (r, topk') /\
    length topk' = length topk /\ r <= k /\
    k_smallest_distinct k (concat (firstn (b - a) (skipn a postings))) (firstn r topk').
Proof.
  intros Hcur Hop [Hacc Hrmq] Hstd Hab Hb Hk Hkn Hf.
  pose proof (minimal_topk_ok ops u at_ Hcur iterator postings Hop std Hstd k (length topk) Hkn acc rmq
    Hacc Hrmq fuel a b topk Hab Hb Hk eq_refl Hf) as H.
  now rewrite map_length in H.
Qed.

Lemma heap_topk_spec {It : Type} (ops : iter_ops It) u at_ iterator postings std k a b fuel topk :
  cursor ops u at_ -> opens at_ iterator postings -> std_heap std ->
  1 <= a -> a <= b + 1 -> b <= length postings -> 1 <= k -> k <= length topk ->
  length (concat postings) < fuel ->
  exists r topk',
    heap_topk ops iterator std k fuel a b topk = Ok (r, topk') /\
    length topk' = length topk /\ r <= k /\
    k_smallest_distinct k (concat (firstn (b + 1 - a) (skipn (a - 1) postings))) (firstn r topk').
Proof.
  intros Hcur Hop Hstd Ha Hab Hb Hk Hkn Hf.
  exact (heap_topk_ok ops u at_ Hcur iterator postings Hop std Hstd k (length topk) Hkn fuel a b topk Ha Hab Hb Hk eq_refl Hf).
Qed.
