(** The searches for any k and any length of the vector of scores: k = 0 means no limit, and the search is undefined
    exactly if it finds more results than fit the vector. *)
From Coq Require Import Permutation Sorted.
From Verif Require Import Base M_Heap S_Heap P_Heap M_Iter S_Iter M_Parse M_TopK S_TopK P_TopK P_TopKDistinct.
Local Open Scope nat_scope.

(** ** Loops that write results one by one *)
Section Write.
  Context {X : Type}.
  (** What a step does besides writing: [None]: it stops; otherwise there may be a result, and a next state. *)
  Variable pre : X -> list nat -> res (option (option nat * res X)).
  Definition wstep (k : nat) (s : X * list nat * nat) : res ((X * list nat * nat) + (nat * list nat)) :=
    let '(x, sc, i) := s in
    do o <- pre x (firstn i sc);
    match o with
    | None => Ok (inr (i, sc))
    | Some (Some d, next) =>
        do sc <- set sc i d;
        if i + 1 =? k then Ok (inr (i + 1, sc)) else do x <- next; Ok (inl (x, sc, i + 1))
    | Some (None, next) => do x <- next; Ok (inl (x, sc, i))
    end.

  Lemma set_inv {A} (l : list A) i v l' : set l i v = Ok l' -> i < length l /\ l' = upd l i v.
  Proof. unfold set. destruct (Nat.ltb_spec i (length l)); [|discriminate]. intros E. injection E as <-. auto. Qed.
  Lemma firstn_upd_lt {A} (l : list A) n i v : i < n -> firstn n (upd l i v) = upd (firstn n l) i v.
  Proof.
    revert n i; induction l as [|y l IH]; intros [|n] [|i] H; cbn; try reflexivity; try lia. f_equal. apply IH. lia.
  Qed.

  Lemma wloop_mono k : forall fuel x sc i r sc', loop fuel (wstep k) (x, sc, i) = Ok (r, sc') -> i <= r /\ length sc' = length sc.
  Proof.
    induction fuel as [|fuel IH]; intros x sc i r sc' E; [discriminate|]. cbn [loop wstep] in E.
    destruct (pre x (firstn i sc)) as [[[[d|] next]|]| | |]; cbn [bind] in E; try discriminate.
    - destruct (set sc i d) as [sc1| | |] eqn:Es; cbn [bind] in E; try discriminate. apply set_inv in Es. destruct Es as [Hi ->].
      destruct (i + 1 =? k).
      + injection E as <- <-. rewrite upd_length. lia.
      + destruct next as [x'| | |]; cbn [bind] in E; try discriminate. apply IH in E. rewrite upd_length in E. lia.
    - destruct next as [x'| | |]; cbn [bind] in E; try discriminate. apply IH in E. exact E.
    - injection E as <- <-. lia.
  Qed.

  Lemma wloop_short k1 k2 n : forall fuel x sc i r sc',
    loop fuel (wstep k1) (x, sc, i) = Ok (r, sc') -> i < k1 -> i <= n -> n <= length sc -> (k2 = k1 \/ k2 = 0 /\ r < k1) ->
    (r <= n /\ loop fuel (wstep k2) (x, firstn n sc, i) = Ok (r, firstn n sc')) \/
    (n < r /\ loop fuel (wstep k2) (x, firstn n sc, i) = UB).
  Proof.
    induction fuel as [|fuel IH]; intros x sc i r sc' E Hi Hn Hl Hk; [discriminate|]. cbn [loop wstep] in E |- *.
    assert (Ef : firstn i (firstn n sc) = firstn i sc) by (rewrite firstn_firstn; f_equal; lia). rewrite Ef.
    destruct (pre x (firstn i sc)) as [[[[d|] next]|]| | |]; cbn [bind] in E |- *; try discriminate.
    - destruct (set sc i d) as [sc1| | |] eqn:Es; cbn [bind] in E; try discriminate. apply set_inv in Es. destruct Es as [Hil ->].
      destruct (Nat.lt_ge_cases i n) as [Hin|Hin].
      + rewrite set_ok by (rewrite firstn_length; lia). cbn [bind]. rewrite <- firstn_upd_lt by exact Hin.
        destruct (Nat.eqb_spec (i + 1) k1) as [E1|E1].
        * injection E as <- <-. destruct Hk as [->|[_ Hk]]; [|lia]. rewrite (proj2 (Nat.eqb_eq _ _) E1). left. split; [lia|reflexivity].
        * assert (E2 : (i + 1 =? k2) = false) by (apply Nat.eqb_neq; lia). rewrite E2.
          destruct next as [x'| | |]; cbn [bind] in E |- *; try discriminate.
          apply (IH x' (upd sc i d) (i + 1) r sc' E); [lia|lia|rewrite upd_length; lia|exact Hk].
      + right. unfold set. rewrite firstn_length. destruct (Nat.ltb_spec i (Nat.min n (length sc))); [lia|]. cbn [bind]. split; [|reflexivity].
        destruct (i + 1 =? k1); [injection E as <- _; lia|]. destruct next as [x'| | |]; cbn [bind] in E; try discriminate.
        apply wloop_mono in E. lia.
    - destruct next as [x'| | |]; cbn [bind] in E |- *; try discriminate. apply (IH x' sc i r sc' E); auto.
    - injection E as <- <-. left. auto.
  Qed.

  (** [Post k ds]: what the search is to find; [m]: a bound on the number of results. *)
  Lemma wloop_any (Post : nat -> list nat -> Prop) m fuel x :
    (forall k sc, 1 <= k -> k <= length sc -> exists r sc', loop fuel (wstep k) (x, sc, 0) = Ok (r, sc') /\ r <= k /\ Post k (firstn r sc')) ->
    (forall k ds, Post k ds -> length ds <= m) ->
    forall k sc, exists ds, Post (if k =? 0 then S m else k) ds /\
      ((length ds <= length sc /\ exists sc', loop fuel (wstep k) (x, sc, 0) = Ok (length ds, sc') /\ length sc' = length sc /\ firstn (length ds) sc' = ds) \/
       (length sc < length ds /\ loop fuel (wstep k) (x, sc, 0) = UB)).
  Proof.
    intros H Hm k sc. set (k1 := if k =? 0 then S m else k). set (big := sc ++ repeat 0 k1).
    assert (Hk1 : 1 <= k1) by (unfold k1; destruct (Nat.eqb_spec k 0); lia).
    assert (Hb : length big = length sc + k1) by (unfold big; now rewrite app_length, repeat_length).
    destruct (H k1 big Hk1 ltac:(lia)) as (r & sc' & E & Hr & HP).
    destruct (wloop_mono _ _ _ _ _ _ _ E) as [_ Hl].
    assert (Hlen : length (firstn r sc') = r) by (rewrite firstn_length; lia). exists (firstn r sc'). rewrite Hlen. split; [exact HP|].
    assert (Hf : firstn (length sc) big = sc) by (unfold big; rewrite firstn_app, firstn_all, Nat.sub_diag; apply app_nil_r).
    destruct (wloop_short k1 k (length sc) fuel x big 0 r sc' E) as [(A & B)|(A & B)]; try lia.
    - unfold k1 in *. destruct (Nat.eqb_spec k 0) as [->|Hk]; [right|now left]. split; [reflexivity|]. specialize (Hm _ _ HP). lia.
    - rewrite Hf in B. left. split; [exact A|]. exists (firstn (length sc) sc'). split; [exact B|]. split; [rewrite firstn_length; lia|].
      rewrite firstn_firstn. f_equal. lia.
    - rewrite Hf in B. right. auto.
  Qed.
End Write.

Lemma loop_ext {S R} (f g : S -> res (S + R)) : (forall s, f s = g s) -> forall fuel s, loop fuel f s = loop fuel g s.
Proof.
  intros H. induction fuel as [|fuel IH]; intros s; [reflexivity|]. cbn [loop]. rewrite H. destruct (g s) as [[s'|r]| | |]; auto.
Qed.

(** ** The outcome of a search *)

Lemma wloop_pos {X} (pre : X -> list nat -> res (option (option nat * res X))) (Post : list nat -> Prop) k fuel x : 1 <= k ->
  (forall sc, k <= length sc -> exists r sc', loop fuel (wstep pre k) (x, sc, 0) = Ok (r, sc') /\ Post (firstn r sc')) ->
  forall sc, exists ds, Post ds /\ outcome (length sc) ds (loop fuel (wstep pre k) (x, sc, 0)).
Proof.
  intros Hk H sc. set (big := sc ++ repeat 0 k).
  assert (Hb : length big = length sc + k) by (unfold big; now rewrite app_length, repeat_length).
  destruct (H big ltac:(lia)) as (r & sc' & E & HP). destruct (wloop_mono _ _ _ _ _ _ _ _ E) as [_ Hl].
  assert (Hf : firstn (length sc) big = sc) by (unfold big; rewrite firstn_app, firstn_all, Nat.sub_diag; apply app_nil_r).
  assert (Hr : forall fuel x sc i r sc', loop fuel (wstep pre k) (x, sc, i) = Ok (r, sc') -> i <= length sc -> r <= length sc).
  { clear. induction fuel as [|fuel IH]; intros x sc i r sc' E Hi; [discriminate|]. cbn [loop wstep] in E.
    destruct (pre x (firstn i sc)) as [[[[d|] next]|]| | |]; cbn [bind] in E; try discriminate.
    - destruct (set sc i d) as [sc1| | |] eqn:Es; cbn [bind] in E; try discriminate. apply set_inv in Es. destruct Es as [Hil ->].
      destruct (i + 1 =? k); [injection E as <- _; lia|]. destruct next as [x'| | |]; cbn [bind] in E; try discriminate.
      apply IH in E; rewrite upd_length in *; lia.
    - destruct next as [x'| | |]; cbn [bind] in E; try discriminate. now apply IH in E.
    - injection E as <- _. exact Hi. }
  specialize (Hr _ _ _ _ _ _ E ltac:(lia)).
  assert (Hlen : length (firstn r sc') = r) by (rewrite firstn_length; lia).
  exists (firstn r sc'). split; [exact HP|]. unfold outcome. rewrite Hlen.
  destruct (wloop_short pre k k (length sc) fuel x big 0 r sc' E) as [(A & B)|(A & B)]; try lia; rewrite Hf in B; [left|right; auto].
  split; [exact A|]. exists (firstn (length sc) sc'). split; [exact B|]. split; [rewrite firstn_length; lia|].
  rewrite firstn_firstn. f_equal. lia.
Qed.
Lemma loop_ext_inv {S R} (f g : S -> res (S + R)) (I : S -> Prop) : (forall s, I s -> f s = g s) ->
  (forall s s', I s -> g s = Ok (inl s') -> I s') -> forall fuel s, I s -> loop fuel f s = loop fuel g s.
Proof.
  intros H Hi. induction fuel as [|fuel IH]; intros s Hs; [reflexivity|]. cbn [loop]. rewrite (H s Hs).
  destruct (g s) as [[s'|r]| | |] eqn:E; try reflexivity. apply IH. eapply Hi; eauto.
Qed.
Lemma wstep_inv {X} (pre : X -> list nat -> res (option (option nat * res X))) k s s' : snd s < k -> wstep pre k s = Ok (inl s') -> snd s' < k.
Proof.
  destruct s as [[x sc] i]. cbn [wstep snd]. intros Hi E.
  destruct (pre x (firstn i sc)) as [[[[d|] next]|]| | |]; cbn [bind] in E; try discriminate.
  - destruct (set sc i d); cbn [bind] in E; try discriminate. destruct (Nat.eqb_spec (i + 1) k); [discriminate|].
    destruct next; cbn [bind] in E; try discriminate. injection E as <-. cbn. lia.
  - destruct next; cbn [bind] in E; try discriminate. injection E as <-. exact Hi.
Qed.

Lemma distinct_length k all ds : k_smallest_distinct k all ds -> length ds <= length all.
Proof.
  intros (Hs & _ & Hin & _). apply NoDup_incl_length; [|exact Hin]. clear -Hs. induction Hs as [|x l H IH Hx]; constructor; [|exact IH].
  rewrite Forall_forall in Hx. intros Hi. specialize (Hx x Hi). lia.
Qed.

(** ** minimal_docids::topk *)
Section Minimal.
  Context {It : Type}.
  Variable ops : iter_ops It.
  Variables (acc : nat -> res nat) (size : nat) (rmq : nat -> nat -> res nat) (iterator : nat -> res It) (std : heap_ops (@open_range It)).

  Definition minimal_pre (q : list (@open_range It)) (found : list nat) : res (option (option nat * res (list (@open_range It)))) :=
    match q with
    | [] => Ok None
    | min :: _ =>
        let docid := minimum ops min in
        do present <- binary_search found docid;
        Ok (Some (if present : bool then None else Some docid,
          match snd min with
          | Some it =>
              do it <- i_next ops it;
              let q := upd q 0 (fst min, Some it) in
              do q <- (if i_has_next ops it then Ok q else heap_pop (minimum ops) std q);
              heapify (minimum ops) q
          | None =>
              do it <- iterator (sr_min_pos (fst min));
              do it <- i_next ops it;
              let q := upd q 0 (fst min, Some it) in
              do q <- (if i_has_next ops it then Ok q else heap_pop (minimum ops) std q);
              do q <- heapify (minimum ops) q;
              do l <- left_range acc rmq (sr_begin (fst min)) (sr_min_pos (fst min));
              let q := opt_push_closed ops std q l in
              do r <- right_range acc size rmq (sr_end (fst min)) (sr_min_pos (fst min));
              Ok (opt_push_closed ops std q r)
          end))
    end.

  Lemma minimal_wstep k s : minimal_step acc size rmq ops iterator std k s = wstep minimal_pre k s.
  Proof.
    destruct s as [[q sc] i]. cbn [minimal_step wstep]. unfold minimal_pre. destruct q as [|min q]; [reflexivity|].
    destruct (binary_search (firstn i sc) (minimum ops min)) as [[|]| | |]; cbn [bind]; try reflexivity.
    - cbn [negb andb]. destruct (snd min) as [it|].
      + destruct (i_next ops it) as [it'| | |]; cbn [bind]; try reflexivity.
        destruct (if i_has_next ops it' then Ok (upd (min :: q) 0 (fst min, Some it')) else heap_pop (minimum ops) std (upd (min :: q) 0 (fst min, Some it'))) as [q1| | |]; cbn [bind]; try reflexivity.
      + destruct (iterator (sr_min_pos (fst min))) as [it| | |]; cbn [bind]; try reflexivity.
        destruct (i_next ops it) as [it'| | |]; cbn [bind]; try reflexivity.
        destruct (if i_has_next ops it' then Ok (upd (min :: q) 0 (fst min, Some it')) else heap_pop (minimum ops) std (upd (min :: q) 0 (fst min, Some it'))) as [q1| | |]; cbn [bind]; try reflexivity.
        destruct (heapify (minimum ops) q1) as [q2| | |]; cbn [bind]; try reflexivity.
        destruct (left_range acc rmq (sr_begin (fst min)) (sr_min_pos (fst min))) as [l| | |]; cbn [bind]; try reflexivity.
        destruct (right_range acc size rmq (sr_end (fst min)) (sr_min_pos (fst min))) as [r| | |]; reflexivity.
    - destruct (set sc i (minimum ops min)) as [sc1| | |]; cbn [bind]; try reflexivity. cbn [negb andb].
      destruct (i + 1 =? k); [reflexivity|]. destruct (snd min) as [it|].
      + destruct (i_next ops it) as [it'| | |]; cbn [bind]; try reflexivity.
        destruct (if i_has_next ops it' then Ok (upd (min :: q) 0 (fst min, Some it')) else heap_pop (minimum ops) std (upd (min :: q) 0 (fst min, Some it'))) as [q1| | |]; cbn [bind]; try reflexivity.
      + destruct (iterator (sr_min_pos (fst min))) as [it| | |]; cbn [bind]; try reflexivity.
        destruct (i_next ops it) as [it'| | |]; cbn [bind]; try reflexivity.
        destruct (if i_has_next ops it' then Ok (upd (min :: q) 0 (fst min, Some it')) else heap_pop (minimum ops) std (upd (min :: q) 0 (fst min, Some it'))) as [q1| | |]; cbn [bind]; try reflexivity.
        destruct (heapify (minimum ops) q1) as [q2| | |]; cbn [bind]; try reflexivity.
        destruct (left_range acc rmq (sr_begin (fst min)) (sr_min_pos (fst min))) as [l| | |]; cbn [bind]; try reflexivity.
        destruct (right_range acc size rmq (sr_end (fst min)) (sr_min_pos (fst min))) as [r| | |]; reflexivity.
  Qed.
End Minimal.

Lemma minimal_topk_any {It : Type} (ops : iter_ops It) u at_ iterator postings acc rmq std k a b fuel topk :
  cursor ops u at_ -> opens at_ iterator postings ->
  (let l := map (fun p => hd 0 p) postings in
   (forall i, i < length l -> acc i = Ok (nth i l 0)) /\ rmq_ok l rmq) ->
  std_heap std ->
  a < b -> b <= length postings -> length (concat postings) < fuel ->
  let all := concat (firstn (b - a) (skipn a postings)) in
  exists ds, k_smallest_distinct (if k =? 0 then S (length all) else k) all ds /\
    outcome (length topk) ds (minimal_topk acc (length postings) rmq ops iterator std k fuel a b topk).
Proof.
  intros H1 H2 H3 H4 H5 H6 H7 all. unfold minimal_topk.
  pose proof (fun k sc A B => minimal_topk_spec ops u at_ iterator postings acc rmq std k a b fuel sc H1 H2 H3 H4 H5 H6 A B H7) as H. unfold minimal_topk in H.
  destruct (whole_range acc rmq a b) as [sr| | |]; cbn [bind] in *.
  2-4: destruct (H 1 [0] (le_n 1) (le_n 1)) as (r & sc' & E & _); discriminate.
  assert (He : forall k sc, loop fuel (minimal_step acc (length postings) rmq ops iterator std k) (heap_push (minimum ops) std [] (sr, None), sc, 0) =
    loop fuel (wstep (minimal_pre ops acc (length postings) rmq iterator std) k) (heap_push (minimum ops) std [] (sr, None), sc, 0)).
  { intros k0 sc0. apply loop_ext. intros s. apply minimal_wstep. }
  rewrite He. apply (wloop_any _ (fun k ds => k_smallest_distinct k all ds)); [|intros k0 ds; apply distinct_length].
  intros k0 sc0 A B. destruct (H k0 sc0 A B) as (r & sc' & E & _ & Hr & Hks). rewrite He in E. exists r, sc'. auto.
Qed.

(** ** heap_topk *)
Section HeapTopK.
  Context {It : Type}.
  Variable ops : iter_ops It.
  Variable std : heap_ops It.
  Definition heap_pre (q : list It) (found : list nat) : res (option (option nat * res (list It))) :=
    match q with
    | [] => Ok None
    | z :: _ =>
        do present <- binary_search found (i_deref ops z);
        Ok (Some (if present : bool then None else Some (i_deref ops z),
          do z <- i_next ops z;
          let q := upd q 0 z in
          do q <- (if i_has_next ops z then Ok q else heap_pop (i_deref ops) std q);
          heapify (i_deref ops) q))
    end.
  Lemma heap_wstep k s : heap_topk_step ops std k s = wstep heap_pre k s.
  Proof.
    destruct s as [[q sc] i]. cbn [heap_topk_step wstep]. unfold heap_pre. destruct q as [|z q]; [reflexivity|].
    destruct (binary_search (firstn i sc) (i_deref ops z)) as [[|]| | |]; cbn [bind]; try reflexivity.
    - cbn [negb andb]. destruct (i_next ops z) as [z'| | |]; cbn [bind]; try reflexivity.
      destruct (if i_has_next ops z' then Ok (upd (z :: q) 0 z') else heap_pop (i_deref ops) std (upd (z :: q) 0 z')) as [q1| | |]; reflexivity.
    - destruct (set sc i (i_deref ops z)) as [sc1| | |]; cbn [bind]; try reflexivity. cbn [negb andb].
      destruct (i + 1 =? k); [reflexivity|]. destruct (i_next ops z) as [z'| | |]; cbn [bind]; try reflexivity.
      destruct (if i_has_next ops z' then Ok (upd (z :: q) 0 z') else heap_pop (i_deref ops) std (upd (z :: q) 0 z')) as [q1| | |]; reflexivity.
  Qed.
End HeapTopK.

Lemma heap_topk_any {It : Type} (ops : iter_ops It) u at_ iterator postings std k a b fuel topk :
  cursor ops u at_ -> opens at_ iterator postings -> std_heap std ->
  1 <= a -> a <= b + 1 -> b <= length postings -> length (concat postings) < fuel ->
  let all := concat (firstn (b + 1 - a) (skipn (a - 1) postings)) in
  exists ds, k_smallest_distinct (if k =? 0 then S (length all) else k) all ds /\
    outcome (length topk) ds (heap_topk ops iterator std k fuel a b topk).
Proof.
  intros H1 H2 H3 H4 H5 H6 H7 all. unfold heap_topk.
  pose proof (fun k sc A B => heap_topk_spec ops u at_ iterator postings std k a b fuel sc H1 H2 H3 H4 H5 H6 A B H7) as H. unfold heap_topk in H.
  destruct (open_all iterator a (b + 1 - a)) as [its| | |]; cbn [bind] in *.
  2-4: destruct (H 1 [0] (le_n 1) (le_n 1)) as (r & sc' & E & _); discriminate.
  assert (He : forall k sc, loop fuel (heap_topk_step ops std k) (make_heap std (i_deref ops) its, sc, 0) =
    loop fuel (wstep (heap_pre ops std) k) (make_heap std (i_deref ops) its, sc, 0)).
  { intros k0 sc0. apply loop_ext. intros s. apply heap_wstep. }
  rewrite He. apply (wloop_any _ (fun k ds => k_smallest_distinct k all ds)); [|intros k0 ds; apply distinct_length].
  intros k0 sc0 A B. destruct (H k0 sc0 A B) as (r & sc' & E & _ & Hr & Hks). rewrite He in E. exists r, sc'. auto.
Qed.

(** ** unsorted_list::topk *)
Section Unsorted.
  Variables (acc : nat -> res nat) (l : list nat) (rmq : nat -> nat -> res nat) (std : heap_ops scored_range).
  Hypothesis Hacc : forall i, i < length l -> acc i = Ok (nth i l 0).
  Hypothesis Hrmq : rmq_ok l rmq.
  Hypothesis Hstd : std_heap std.

  Definition unsorted_pre (q : list scored_range) (found : list nat) : res (option (option nat * res (list scored_range))) :=
    match q with
    | [] => Ok None
    | min :: _ =>
        Ok (Some (Some (sr_min_val min),
          do q <- heap_pop sr_min_val std q;
          do lr <- left_range acc rmq (sr_begin min) (sr_min_pos min);
          let q := opt_push std q lr in
          do r <- right_range acc (length l) rmq (sr_end min) (sr_min_pos min);
          Ok (opt_push std q r)))
    end.
  Lemma unsorted_wstep k s : unsorted_step acc (length l) rmq std k false s = wstep unsorted_pre k s.
  Proof.
    destruct s as [[q sc] i]. cbn [unsorted_step wstep]. unfold unsorted_pre. destruct q as [|min q]; [reflexivity|]. cbn [bind].
    destruct (set sc i (sr_min_val min)) as [sc1| | |]; cbn [bind]; try reflexivity. cbn [negb andb].
    destruct (i + 1 =? k); [reflexivity|]. destruct (heap_pop sr_min_val std (min :: q)) as [q1| | |]; cbn [bind]; try reflexivity.
    destruct (left_range acc rmq (sr_begin min) (sr_min_pos min)) as [lr| | |]; cbn [bind]; try reflexivity.
    destruct (right_range acc (length l) rmq (sr_end min) (sr_min_pos min)) as [r| | |]; reflexivity.
  Qed.

  Lemma copy_range_over b : forall n i topk, b + i + n <= length l -> i <= length topk -> length topk < i + n -> copy_range acc b i n topk = UB.
  Proof.
    induction n as [|n IH]; intros i topk H1 H2 H3; [lia|]. cbn [copy_range]. rewrite Hacc by lia. cbn [bind].
    destruct (Nat.eq_dec i (length topk)) as [E|E].
    - unfold set. destruct (Nat.ltb_spec i (length topk)); [lia|reflexivity].
    - rewrite set_ok by lia. cbn [bind]. apply IH; rewrite ?upd_length; lia.
  Qed.

  Lemma unsorted_topk_any k rb re fuel topk : rb < re -> re <= length l -> re - rb + 1 < fuel ->
    exists ds, k_smallest (if k =? 0 then S (re - rb) else k) (segment l rb re) ds /\
      outcome (length topk) ds (unsorted_topk acc (length l) rmq std k false fuel rb re topk).
  Proof.
    intros H1 H2 Hf. unfold unsorted_topk.
    destruct (Nat.leb_spec (re - rb) k) as [C|C].
    - assert (E0 : (k =? 0) = false) by (apply Nat.eqb_neq; lia). rewrite E0.
      exists (sort_nat (segment l rb re)).
      assert (Ls : length (sort_nat (segment l rb re)) = re - rb).
      { rewrite (Permutation_length (sort_nat_perm _)). now apply segment_length. }
      split.
      { split; [apply sort_nat_ss|]. split; [rewrite Ls, segment_length by lia; lia|].
        exists []. rewrite app_nil_r. split; [symmetry; apply sort_nat_perm|]. intros x y _ []. }
      unfold outcome. rewrite Ls. destruct (Nat.le_gt_cases (re - rb) (length topk)) as [D|D].
      + left. split; [exact D|]. destruct (copy_range_ok acc l Hacc rb (re - rb) 0 topk) as (t & E & Lt & F); [lia|lia|].
        rewrite E. cbn [bind]. eexists. split; [reflexivity|].
        replace (rb + 0) with rb in F by lia. replace (rb + (re - rb)) with re in F by lia. cbn [firstn app Nat.add] in F. rewrite F.
        split; [rewrite app_length, Ls, skipn_length; lia|].
        rewrite <- Ls at 1. rewrite firstn_app, firstn_all, Nat.sub_diag. cbn [firstn]. apply app_nil_r.
      + right. split; [exact D|]. rewrite (copy_range_over rb (re - rb) 0 topk) by lia. reflexivity.
    - destruct (whole_range_ok acc l rmq Hacc Hrmq rb re) as (s & E & Hs & Eb & Ee); [lia|lia|]. rewrite E. cbn [bind].
      rewrite (loop_ext _ _ (unsorted_wstep k)).
      apply (wloop_any _ (fun k ds => k_smallest k (segment l rb re) ds)).
      + intros k0 sc A B. rewrite <- (loop_ext _ _ (unsorted_wstep k0)).
        destruct (unsorted_loop_ok acc l rmq Hacc Hrmq std Hstd k0 rb re (length sc) B H2 fuel sc s A eq_refl Hf Hs Eb Ee) as (r & t & Er & _ & Hr & Hks).
        exists r, t. auto.
      + intros k0 ds (_ & L & _). rewrite L, segment_length by lia. lia.
  Qed.
End Unsorted.
