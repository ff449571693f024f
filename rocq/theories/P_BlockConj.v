(** Conjunctive searches in the blocked index. *)
From Coq Require Import Sorted Permutation.
From Verif Require Import Base M_Heap S_Heap P_Heap M_Iter S_Iter M_Parse M_Intersect S_Intersect P_Intersect M_TopK S_TopK P_TopK P_TopKDistinct.
From Verif Require Import M_Containers S_Containers P_Pool M_Blocked S_Blocked P_Blocked P_Auto3 P_BlockView.
Local Open Scope nat_scope.

Lemma concat_perm {A} (Rs Rs' : list (list A)) : Permutation Rs Rs' -> Permutation (concat Rs) (concat Rs').
Proof.
  intros P. induction P; cbn; auto.
  - now apply Permutation_app_head.
  - rewrite !app_assoc. apply Permutation_app_tail, Permutation_app_comm.
  - etransitivity; eassumption.
Qed.

(** Replacing the top of a heap of elements that stand for lists. *)
Lemma repair_ok {E A} (key : E -> nat) (std : heap_ops E) (Hstd : std_heap std) (den : E -> list A -> Prop) e q Rs (hn : bool) e' R' :
  is_heap key (e :: q) -> Forall2 den q Rs -> (hn = true -> den e' R') -> (hn = false -> R' = []) ->
  exists q' Rs', (if hn then heapify key (upd (e :: q) 0 e') else heap_pop key std (upd (e :: q) 0 e')) = Ok q' /\
    is_heap key q' /\ Forall2 den q' Rs' /\ Permutation (concat Rs') (R' ++ concat Rs).
Proof.
  intros Hh HF Ht Hf. cbn [upd].
  assert (Hb : heap_below_root key (e' :: q)) by exact (heap_below_upd0 key (e :: q) e' (heap_below _ _ Hh)).
  destruct hn.
  - destruct (heapify_ok key _ Hb) as (q' & Eq & H1 & P1).
    destruct (Permutation_Forall2 (Permutation_sym P1) (Forall2_cons _ _ (Ht eq_refl) HF)) as (Rs' & P2 & HF2).
    exists q', Rs'. split; [exact Eq|]. split; [exact H1|]. split; [exact HF2|]. apply concat_perm in P2. symmetry. exact P2.
  - destruct (heap_pop_ok key std Hstd e' q Hb) as (q1 & E1 & H1 & P1). rewrite (Hf eq_refl).
    destruct (Permutation_Forall2 (Permutation_sym P1) HF) as (Rs' & P2 & HF2).
    exists q1, Rs'. split; [exact E1|]. split; [exact H1|]. split; [exact HF2|]. apply concat_perm in P2. symmetry. exact P2.
Qed.

Lemma heapify_again {E A} (key : E -> nat) (den : E -> list A -> Prop) q Rs : is_heap key q -> Forall2 den q Rs ->
  exists q' Rs', heapify key q = Ok q' /\ is_heap key q' /\ Forall2 den q' Rs' /\ Permutation (concat Rs') (concat Rs).
Proof.
  intros Hh HF. destruct (heapify_ok key _ (heap_below _ _ Hh)) as (q' & Eq & H1 & P1).
  destruct (Permutation_Forall2 (Permutation_sym P1) HF) as (Rs' & P2 & HF2).
  exists q', Rs'. split; [exact Eq|]. split; [exact H1|]. split; [exact HF2|]. apply concat_perm in P2. symmetry. exact P2.
Qed.

(** The documents of the pairs marked [true]. *)
Definition hit_docs (X : list (nat * bool)) : list nat := map fst (filter snd X).
Lemma in_hit_docs X d : In d (hit_docs X) <-> In (d, true) X.
Proof.
  unfold hit_docs. rewrite in_map_iff. split.
  - intros ((d' & h) & E & H). apply filter_In in H. cbn in *. destruct H as [H Eh]. now subst.
  - intros H. exists (d, true). split; [reflexivity|]. now apply filter_In.
Qed.
Lemma filter_perm {A} (f : A -> bool) X Y : Permutation X Y -> Permutation (filter f X) (filter f Y).
Proof.
  intros P. induction P; cbn; auto.
  - destruct (f x); [now constructor|assumption].
  - destruct (f x), (f y); try apply Permutation_refl. constructor.
  - etransitivity; eassumption.
Qed.
Lemma hit_docs_perm X Y : Permutation X Y -> Permutation (hit_docs X) (hit_docs Y).
Proof. intros P. apply Permutation_map. now apply filter_perm. Qed.

Lemma skipn_head' {A} (l : list A) p d : p < length l -> skipn p l = nth p l d :: skipn (p + 1) l.
Proof.
  revert p; induction l as [|x l IH]; intros p H; [cbn in H; lia|].
  destruct p as [|p]; [reflexivity|]. cbn in *. apply IH. lia.
Qed.

Lemma le_sorted_snoc l x : StronglySorted le l -> (forall y, In y l -> y <= x) -> StronglySorted le (l ++ [x]).
Proof.
  intros H. induction H as [|y l H IH Hy]; intros Hx; [repeat constructor|]. cbn. constructor; [apply IH; intros z Hz; apply Hx; now right|].
  apply Forall_app. split; [exact Hy|]. repeat constructor. apply Hx. now left.
Qed.

(** ** Sequences of checks *)
(** Each check is of a document; [None]: it was not made, no block having the document. *)
Definition some_hit (e : nat * bool) : nat * option bool := (fst e, Some (snd e)).
Definition is_hit (e : nat * option bool) : bool := match snd e with Some h => h | None => false end.
Definition hits_of (tr : list (nat * option bool)) : list nat := map fst (filter is_hit tr).
Fixpoint first_fails (tr : list (nat * option bool)) : bool :=
  match tr with [] => false | (_, None) :: tr => first_fails tr | (_, Some h) :: _ => negb h end.
(** The documents found are written until there are k. *)
Fixpoint write (k : nat) (tr : list (nat * option bool)) (i : nat) (sc : list nat) : res (nat * list nat) :=
  match tr with
  | [] => Ok (i, sc)
  | (d, None) :: tr => write k tr i sc
  | (d, Some h) :: tr =>
      do (i, sc) <- (if h : bool then do sc <- set sc i d; Ok (i + 1, sc) else Ok (i, sc));
      if i =? k then Ok (i, sc) else write k tr i sc
  end.

Section Conj.
  Variable K : bcontainers.
  Hypothesis HK : bcontainers_ok K.
  Variable ii : bindex K.
  Let u := bi_docs_num K ii.
  Let ops := k_ops K u.
  Variable at_ : k_It K -> list nat -> nat -> Prop.
  Hypothesis Hcur : cursor ops u at_.
  Hypothesis Hpos : forall it l p, at_ it l p -> b_position K it = p.
  Variables rb re : nat.
  Let key := block_key K ii.
  Let std := k_heap K (block K).

  (** What a block of the queue stands for: the remaining documents, each marked whether the block has a term of the range. *)
  Definition den (b : block K) (L : list (nat * bool)) : Prop :=
    exists v p, at_block K at_ b v p /\ p < length (v_docs v) /\ L = map (fun d => (d, hits rb re v d)) (skipn p (v_docs v)).
  Definition queue_ok (q : list (block K)) (Rs : list (list (nat * bool))) : Prop := is_heap key q /\ Forall2 den q Rs.

  Lemma std_ok : std_heap std.
  Proof. unfold std. apply (ok_heap K (okb_base K HK)). Qed.

  Lemma den_top b L : den b L -> exists h L', L = (key b, h) :: L' /\ check K rb re b = Ok h /\ (forall y, In y L' -> key b < fst y).
  Proof.
    intros (v & p & Hb & Hp & ->). destruct (Hcur _ _ _ (proj2 Hb)) as (Hi & Hu & _ & _ & _ & _ & Hd & _).
    assert (Ek : key b = nth p (v_docs v) 0).
    { unfold key, block_key. fold u. fold ops. rewrite Hd. now apply nth_indep. }
    exists (hits rb re v (nth p (v_docs v) 0)), (map (fun d => (d, hits rb re v d)) (skipn (p + 1) (v_docs v))).
    rewrite (skipn_head (v_docs v) p 0 Hp). cbn [map]. rewrite Ek. split; [reflexivity|].
    split; [apply (check_ok K ii at_ Hpos rb re b v p Hb Hp)|].
    intros y Hy. apply in_map_iff in Hy. destruct Hy as (d & <- & Hd'). cbn [fst].
    pose proof (increasing_skipn _ p Hi) as Hs. rewrite (skipn_head (v_docs v) p 0 Hp) in Hs. inversion Hs as [|? ? _ HF]; subst.
    rewrite Forall_forall in HF. now apply HF.
  Qed.

  Lemma top_min e q R1 Rs : queue_ok (e :: q) (R1 :: Rs) -> forall y, In y (concat (R1 :: Rs)) -> key e <= fst y.
  Proof.
    intros [Hh HF] y Hy.
    assert (Hden' : forall b R, (exists L, den b L /\ R = map fst L) -> In (key b) R /\ forall z, In z R -> key b <= z).
    { intros b R (L & HL & ->). destruct (den_top b L HL) as (h & L' & -> & _ & Hlt). cbn [map fst]. split; [now left|].
      intros z [<-|Hz]; [lia|]. apply in_map_iff in Hz. destruct Hz as (w & <- & Hw). specialize (Hlt w Hw). lia. }
    assert (HF' : Forall2 (fun b R => exists L, den b L /\ R = map fst L) (e :: q) (map (map fst) (R1 :: Rs))).
    { clear -HF. revert HF. generalize (e :: q) (R1 :: Rs). intros l1 l2 HF. induction HF; constructor; eauto. }
    cbn [map] in HF'. destruct (queue_min key _ Hden' e q _ _ Hh HF') as [_ Hm]. apply Hm.
    change (map fst R1 :: map (map fst) Rs) with (map (map fst) (R1 :: Rs)). rewrite <- concat_map. now apply in_map.
  Qed.

  (** next() on the top block. *)
  Lemma next_den b h L' : den b ((key b, h) :: L') ->
    exists it, i_next ops (bk_docs K b) = Ok it /\
      (i_has_next ops it = true -> den (with_docs K b it) L') /\ (i_has_next ops it = false -> L' = []).
  Proof.
    intros (v & p & Hb & Hp & E). destruct (Hcur _ _ _ (proj2 Hb)) as (Hi & Hu & _ & _ & _ & _ & Hd & Hn & _).
    destruct (Hn Hp) as (it & Eit & Hat). exists it. split; [exact Eit|].
    destruct (Hcur _ _ _ Hat) as (_ & _ & _ & _ & _ & Hh & _). rewrite Hh.
    rewrite (skipn_head (v_docs v) p 0 Hp) in E. cbn [map] in E. injection E as _ _ ->. split.
    - intros L. apply Nat.ltb_lt in L. exists v, (p + 1). split; [eapply with_docs_ok; eauto|]. auto.
    - intros L. apply Nat.ltb_ge in L. now rewrite skipn_all2.
  Qed.

  (** * No complete token: the union of the blocks *)
  (** The checks made, in this order: they do not depend on k and the results so far. *)
  Lemma union_trace : forall n q Rs, length (concat Rs) = n -> queue_ok q Rs ->
    exists tr, StronglySorted le (map fst tr) /\ Permutation tr (map some_hit (concat Rs)) /\
      forall k sc i f, n < f -> loop f (union_step K ii k rb re) (q, sc, i) = write k tr i sc.
  Proof.
    induction n as [|n IH]; intros q Rs Hn HQ.
    - exists []. assert (E : concat Rs = []) by (destruct (concat Rs); [reflexivity|discriminate]). rewrite E. split; [constructor|]. split; [constructor|].
      intros k sc i [|f] Hf; [lia|]. cbn [loop]. destruct q as [|z q]; [reflexivity|]. exfalso.
      destruct HQ as [_ HF]. inversion HF as [|? R1 ? Rs1 Hz HF1]; subst. destruct (den_top z R1 Hz) as (h & L' & -> & _). discriminate.
    - destruct q as [|z q]; [destruct HQ as [_ HF]; inversion HF; subst; discriminate|].
      pose proof HQ as [Hh HF]. inversion HF as [|? R1 ? Rs1 Hz HF1]; subst.
      destruct (den_top z R1 Hz) as (h & L' & -> & Eck & Hlt). pose proof (top_min z q _ _ HQ) as Hmin.
      destruct (next_den z h L' Hz) as (it & Eit & Hd1 & Hd2).
      destruct (repair_ok key std std_ok den z q Rs1 (i_has_next ops it) (with_docs K z it) L' Hh HF1 Hd1 Hd2) as (q1 & Rs2 & E1 & H1 & HF2 & P2).
      (* the repaired queue *)
      assert (Hq : exists q' Rs', (do q0 <- (if i_has_next ops it then Ok (upd (z :: q) 0 (with_docs K z it)) else heap_pop key std (upd (z :: q) 0 (with_docs K z it))); heapify key q0) = Ok q' /\
        queue_ok q' Rs' /\ Permutation (concat Rs') (L' ++ concat Rs1)).
      { destruct (i_has_next ops it).
        - cbn [bind]. exists q1, Rs2. split; [exact E1|]. split; [split; assumption|exact P2].
        - rewrite E1. cbn [bind]. destruct (heapify_again key den q1 Rs2 H1 HF2) as (q' & Rs' & E' & H' & HF' & P').
          exists q', Rs'. split; [exact E'|]. split; [split; assumption|]. etransitivity; [exact P'|exact P2]. }
      destruct Hq as (q' & Rs' & Eq & HQ' & Pq).
      destruct (IH q' Rs') as (tr & Ts & Tp & Tl); [rewrite (Permutation_length Pq); cbn in Hn; lia|exact HQ'|].
      exists ((key z, Some h) :: tr). split; [|split].
      + cbn [map fst]. constructor; [exact Ts|]. apply Forall_forall. intros y Hy. apply in_map_iff in Hy. destruct Hy as (w & <- & Hw).
        apply (Permutation_in _ Tp) in Hw. apply in_map_iff in Hw. destruct Hw as (v & <- & Hv). apply (Permutation_in _ Pq) in Hv.
        apply (Hmin v). cbn. right. exact Hv.
      + cbn [concat app map]. unfold some_hit at 1. cbn [fst snd]. constructor. etransitivity; [exact Tp|]. now apply Permutation_map.
      + intros k sc i [|f] Hf; [lia|]. cbn [loop union_step write]. rewrite Eck. cbn [bind]. fold key. fold u. fold ops. fold std.
        assert (E3 : forall (s : list nat) (r : nat), (do q0 <- (if i_has_next ops it then Ok (upd (z :: q) 0 (with_docs K z it)) else heap_pop key std (upd (z :: q) 0 (with_docs K z it)));
                      do q2 <- heapify key q0; Ok (@inl _ (nat * list nat) (q2, s, r))) = Ok (inl (q', s, r))).
        { intros s r. revert Eq. destruct (if i_has_next ops it then Ok (upd (z :: q) 0 (with_docs K z it)) else heap_pop key std (upd (z :: q) 0 (with_docs K z it))); cbn [bind]; try discriminate. intros ->. reflexivity. }
        destruct h; cbn [bind].
        * destruct (set sc i (key z)) as [sc'| | |]; cbn [bind]; try reflexivity. destruct (i + 1 =? k); [reflexivity|].
          rewrite Eit. cbn [bind]. cbv zeta. rewrite E3. apply Tl. lia.
        * destruct (i =? k); [reflexivity|]. rewrite Eit. cbn [bind]. cbv zeta. rewrite E3. apply Tl. lia.
  Qed.

  (** * With complete tokens *)
  Variable fuel : nat.

  Lemma inner4_step_ok doc q Rs : doc < u -> queue_ok q Rs ->
    match conj4_inner_step K ii rb re doc q with
    | Ok (inl q') => exists Rs', queue_ok q' Rs' /\ length (concat Rs') < length (concat Rs) /\
        forall y, doc <= fst y -> (In y (concat Rs') <-> In y (concat Rs))
    | Ok (inr (q', o)) => queue_ok q' Rs /\
        match o with None => forall h, ~ In (doc, h) (concat Rs) | Some h => In (doc, h) (concat Rs) end
    | _ => False
    end.
  Proof.
    intros Hdoc HQ. destruct q as [|z q].
    - cbn [conj4_inner_step]. split; [exact HQ|]. destruct HQ as [_ HF]. inversion HF; subst. intros h [].
    - pose proof HQ as [Hh HF]. inversion HF as [|? R1 ? Rs1 Hz HF1]; subst.
      destruct (den_top z R1 Hz) as (h & L' & ER1 & Eck & Hlt). pose proof (top_min z q _ _ HQ) as Hmin.
      cbn [conj4_inner_step]. fold key. fold u. fold ops. fold std.
      destruct (Nat.ltb_spec doc (key z)) as [L|L].
      { split; [exact HQ|]. intros h' Hin. specialize (Hmin _ Hin). cbn in Hmin. lia. }
      destruct (Nat.ltb_spec (key z) doc) as [L2|L2].
      + destruct Hz as (v & p & Hb & Hp & ->). destruct (Hcur _ _ _ (proj2 Hb)) as (Hi & Hu & _ & _ & _ & _ & Hd & _ & Hg & _).
        destruct (Hg doc ltac:(lia)) as (it & Eit & Hat). rewrite Eit. cbn [bind]. cbv zeta.
        destruct (Hcur _ _ _ Hat) as (_ & _ & _ & _ & _ & Hhn & _).
        assert (Ek : key z = nth p (v_docs v) u) by exact Hd.
        pose proof (first_geq_gt (v_docs v) p doc u Hi Hp ltac:(lia)) as Hgt.
        set (g := fun d => (d, hits rb re v d)) in *.
        destruct (repair_ok key std std_ok den z q Rs1 (i_has_next ops it) (with_docs K z it) (map g (skipn (first_geq (v_docs v) doc) (v_docs v))) Hh HF1)
          as (q1 & Rs2 & E1 & H1 & HF2 & P2).
        { rewrite Hhn. intros Ll. apply Nat.ltb_lt in Ll. exists v, (first_geq (v_docs v) doc). split; [eapply with_docs_ok; eauto|]. auto. }
        { rewrite Hhn. intros Ll. apply Nat.ltb_ge in Ll. now rewrite skipn_all2. }
        rewrite E1. cbn [bind]. exists Rs2. split; [split; assumption|]. split.
        * rewrite (Permutation_length P2). cbn [concat]. rewrite !app_length, !map_length, !skipn_length. pose proof (first_geq_le (v_docs v) doc). lia.
        * intros y Hy. assert (Hperm : In y (concat Rs2) <-> In y (map g (skipn (first_geq (v_docs v) doc) (v_docs v)) ++ concat Rs1)).
          { split; apply Permutation_in; [exact P2|symmetry; exact P2]. }
          rewrite Hperm. cbn [concat]. rewrite !in_app_iff.
          assert (Heq : In y (map g (skipn (first_geq (v_docs v) doc) (v_docs v))) <-> In y (map g (skipn p (v_docs v)))).
          { rewrite !in_map_iff. split; intros (d & <- & Hd'); exists d; (split; [reflexivity|]); cbn [fst g] in Hy.
            - assert (Esp : skipn (first_geq (v_docs v) doc) (v_docs v) = skipn (first_geq (v_docs v) doc - p) (skipn p (v_docs v))).
              { rewrite skipn_skipn. f_equal. lia. }
              rewrite Esp in Hd'. rewrite <- (firstn_skipn (first_geq (v_docs v) doc - p) (skipn p (v_docs v))). apply in_or_app. now right.
            - apply first_geq_skip; [exact Hi|]. split; [|exact Hy]. rewrite <- (firstn_skipn p (v_docs v)). apply in_or_app. now right. }
          rewrite Heq. reflexivity.
      + rewrite Eck. cbn [bind]. split; [exact HQ|]. assert (E : key z = doc) by lia. rewrite ER1, E. cbn. now left.
  Qed.

  Lemma inner4_ok doc q Rs : doc < u -> queue_ok q Rs -> length (concat Rs) < fuel ->
    exists q' o Rs', loop fuel (conj4_inner_step K ii rb re doc) q = Ok (q', o) /\ queue_ok q' Rs' /\
      length (concat Rs') <= length (concat Rs) /\
      (forall y, doc <= fst y -> (In y (concat Rs') <-> In y (concat Rs))) /\
      match o with None => forall h, ~ In (doc, h) (concat Rs) | Some h => In (doc, h) (concat Rs) end.
  Proof.
    intros Hdoc HQ Hf.
    destruct (loop_ok_n (conj4_inner_step K ii rb re doc)
      (fun n q => exists Rs', queue_ok q Rs' /\ n = length (concat Rs') /\ length (concat Rs') <= length (concat Rs) /\
         forall y, doc <= fst y -> (In y (concat Rs') <-> In y (concat Rs)))
      (fun r => exists Rs', queue_ok (fst r) Rs' /\ length (concat Rs') <= length (concat Rs) /\
         (forall y, doc <= fst y -> (In y (concat Rs') <-> In y (concat Rs))) /\
         match snd r with None => forall h, ~ In (doc, h) (concat Rs) | Some h => In (doc, h) (concat Rs) end))
      with (fuel := fuel) (n := length (concat Rs)) (s := q) as ([q' o] & E & Rs' & A & B & C & D).
    - intros n q1 (Rs1 & HQ1 & -> & Hle & Hin). pose proof (inner4_step_ok doc q1 Rs1 Hdoc HQ1) as H.
      destruct (conj4_inner_step K ii rb re doc q1) as [[q2|[q2 o]]| | |]; try contradiction.
      + destruct H as (Rs2 & A & B & C). exists (length (concat Rs2)). split; [exact B|]. exists Rs2. split; [exact A|].
        split; [reflexivity|]. split; [lia|]. intros y Hy. rewrite (C y Hy). now apply Hin.
      + destruct H as (A & D). exists Rs1. cbn [fst snd]. split; [exact A|]. split; [lia|]. split; [exact Hin|].
        destruct o as [h|]; [apply Hin; [cbn; lia|exact D]|]. intros h Hd. apply (D h). apply Hin; [cbn; lia|exact Hd].
    - exists Rs. split; [exact HQ|]. split; [reflexivity|]. split; [lia|tauto].
    - exact Hf.
    - exists q', o, Rs'. cbn [fst snd] in *. auto.
  Qed.

  (** What the check of document [d] found; [None]: no block of the queue has it. *)
  Definition decided (X : list (nat * bool)) (e : nat * option bool) : Prop :=
    match snd e with None => forall h, ~ In (fst e, h) X | Some h => In (fst e, h) X end.

  Lemma conj4_trace : forall r it q Rs,
    yields (binter_stream K ii fuel) it r -> increasing r -> Forall (fun d => d < u) r -> queue_ok q Rs -> length (concat Rs) < fuel ->
    exists tr, map fst tr = r /\ Forall (decided (concat Rs)) tr /\
      forall k sc i f, length r < f -> loop f (conj4_step K ii fuel k rb re) (it, q, sc, i) = write k tr i sc.
  Proof.
    induction r as [|d r IH]; intros it q Rs Hy Hinc Hlt HQ Hlen; cbn [yields] in Hy.
    - exists []. split; [reflexivity|]. split; [constructor|]. intros k sc i [|f] Hf; [lia|]. cbn [loop conj4_step]. cbv zeta. now rewrite Hy.
    - destruct Hy as (Hn & Hd & it' & Enext & Hy). inversion Hlt as [|? ? Hd1 Hd2]; subst. inversion Hinc as [|? ? Hinc' Hgt]; subst.
      set (d := s_deref (binter_stream K ii fuel) it) in *.
      destruct (Nat.eqb_spec (length q) 0) as [Hq0|Hq0].
      { assert (q = []) by (destruct q; [reflexivity|discriminate]). subst q. pose proof HQ as [_ HF]. inversion HF; subst.
        exists (map (fun d => (d, None)) (d :: r)). split; [rewrite map_map; apply map_id|]. split.
        - apply Forall_forall. intros e He. apply in_map_iff in He. destruct He as (y & <- & _). intros h [].
        - intros k sc i [|f] Hf; [lia|]. cbn [loop conj4_step]. cbv zeta. rewrite Hn. cbn [length Nat.eqb negb orb].
          assert (Hw : forall l, write k (map (fun d => (d, None)) l) i sc = Ok (i, sc)) by (induction l; auto). now rewrite Hw. }
      destruct (inner4_ok d q Rs Hd1 HQ Hlen) as (q' & o & Rs' & Ei & HQ' & Hle & Hin & Ho).
      destruct (IH it' q' Rs' Hy Hinc' Hd2 HQ' ltac:(lia)) as (tr & Tm & Td & Tl).
      exists ((d, o) :: tr). split; [cbn; now rewrite Tm|]. split.
      + constructor; [exact Ho|]. rewrite Forall_forall in Td |- *. intros [y o'] He. specialize (Td _ He).
        assert (Hyr : In y r) by (rewrite <- Tm; change y with (fst (y, o')); now apply in_map). rewrite Forall_forall in Hgt. pose proof (Hgt y Hyr).
        unfold decided in *. cbn [fst snd] in *. destruct o' as [h|]; [apply Hin; [cbn; lia|exact Td]|].
        intros h Hx. apply (Td h). apply Hin; [cbn; lia|exact Hx].
      + intros k sc i [|f] Hf; [lia|]. cbn [loop conj4_step write]. cbv zeta. rewrite Hn. cbn [negb orb].
        apply Nat.eqb_neq in Hq0. rewrite Hq0. fold d. rewrite Ei. cbn [bind]. destruct o as [[|]|]; cbn [bind].
        * destruct (set sc i d) as [sc'| | |]; cbn [bind]; try reflexivity. destruct (i + 1 =? k); [reflexivity|].
          rewrite Enext. cbn [bind]. apply Tl. cbn [length] in Hf. lia.
        * destruct (i =? k); [reflexivity|]. rewrite Enext. cbn [bind]. apply Tl. cbn [length] in Hf. lia.
        * rewrite Enext. cbn [bind]. apply Tl. cbn [length] in Hf. lia.
  Qed.
End Conj.

(** ** The results of a sequence of checks *)
Lemma write_ok k : forall tr i sc, i <= length sc -> (k = 0 -> 1 <= i) -> (1 <= k -> i < k) ->
  let ds := if k =? 0 then hits_of tr else firstn (k - i) (hits_of tr) in
  (i + length ds <= length sc /\ exists sc', write k tr i sc = Ok (i + length ds, sc') /\ length sc' = length sc /\ firstn (i + length ds) sc' = firstn i sc ++ ds) \/
  (length sc < i + length ds /\ write k tr i sc = UB).
Proof.
  induction tr as [|(d, o) tr IH]; intros i sc Hl H0 H1.
  - cbn. left. assert (E : (if k =? 0 then [] else firstn (k - i) []) = @nil nat) by (rewrite firstn_nil; now destruct (k =? 0)).
    change (hits_of []) with (@nil nat). rewrite E. cbn [length]. rewrite Nat.add_0_r, app_nil_r. split; [exact Hl|]. eauto.
  - assert (Eh : hits_of ((d, o) :: tr) = match o with Some true => d :: hits_of tr | _ => hits_of tr end) by (destruct o as [[|]|]; reflexivity).
    rewrite Eh. cbn [write]. destruct o as [[|]|]; cbn [bind].
    + cbv zeta. set (ds := if k =? 0 then d :: hits_of tr else firstn (k - i) (d :: hits_of tr)).
      set (ds' := if k =? 0 then hits_of tr else firstn (k - (i + 1)) (hits_of tr)).
      assert (Ed : ds = d :: ds').
      { unfold ds, ds'. destruct (Nat.eqb_spec k 0); [reflexivity|]. replace (k - i) with (S (k - (i + 1))) by lia. reflexivity. }
      rewrite Ed. cbn [length]. unfold set. destruct (Nat.ltb_spec i (length sc)) as [L|L]; [|right; split; [lia|reflexivity]]. cbn [bind].
      destruct (Nat.eqb_spec (i + 1) k) as [E|E].
      * assert (Ez : ds' = []) by (unfold ds'; destruct (Nat.eqb_spec k 0); [lia|]; now replace (k - (i + 1)) with 0 by lia).
        rewrite Ez. cbn [length]. left. split; [lia|]. exists (upd sc i d). rewrite upd_length. split; [reflexivity|]. split; [reflexivity|]. now rewrite upd_firstn.
      * destruct (IH (i + 1) (upd sc i d)) as [(A & sc' & B & C & D)|(A & B)]; try (rewrite upd_length; lia); try lia; fold ds' in A, B.
        -- fold ds' in D. left. rewrite upd_length in A, C. split; [lia|]. exists sc'. rewrite B. split; [f_equal; f_equal; lia|]. split; [exact C|].
           replace (i + S (length ds')) with (i + 1 + length ds') by lia. rewrite D, upd_firstn by exact L. now rewrite <- app_assoc.
        -- right. rewrite upd_length in A. split; [lia|exact B].
    + destruct (Nat.eqb_spec i k) as [E|E]; [lia|]. now apply IH.
    + now apply IH.
Qed.

Lemma write_pos k tr sc : 1 <= k -> outcome (length sc) (firstn k (hits_of tr)) (write k tr 0 sc).
Proof.
  intros Hk. pose proof (write_ok k tr 0 sc ltac:(lia) ltac:(lia) ltac:(lia)) as H. cbv zeta in H.
  destruct (Nat.eqb_spec k 0); [lia|]. rewrite Nat.sub_0_r in H. exact H.
Qed.
(** With k = 0 the search stops if the first check fails. *)
Lemma write_zero tr sc : outcome (length sc) (if first_fails tr then [] else hits_of tr) (write 0 tr 0 sc).
Proof.
  induction tr as [|(d, o) tr IH]; [left; cbn; split; [lia|eauto]|]. destruct o as [[|]|].
  - cbn [write first_fails negb]. change (hits_of ((d, Some true) :: tr)) with (d :: hits_of tr).
    unfold set. destruct (Nat.ltb_spec 0 (length sc)) as [L|L]; cbn [bind]; [|right; cbn; split; [lia|reflexivity]]. cbn [Nat.add Nat.eqb].
    pose proof (write_ok 0 tr 1 (upd sc 0 d) ltac:(rewrite upd_length; lia) ltac:(lia) ltac:(lia)) as H. cbn [Nat.eqb] in H. cbv zeta in H.
    rewrite upd_length in H. destruct H as [(A & sc' & B & C & D)|(A & B)]; [left|right; split; [exact A|exact B]].
    split; [exact A|]. exists sc'. split; [exact B|]. split; [exact C|]. cbn [length]. unfold plus in D. rewrite D.
    destruct sc; [cbn in L; lia|]. reflexivity.
  - cbn. left. split; [cbn; lia|]. eauto.
  - exact IH.
Qed.
