(** Proofs about M_TopK: unsorted_list::topk. *)
From Coq Require Import Permutation Sorted.
From Verif Require Import Base M_Heap S_Heap P_Heap M_Iter S_Iter M_Parse P_Parse M_TopK S_TopK.
Local Open Scope nat_scope.

(** * Lists *)
Lemma firstn_upd {A} (l : list A) i v : i < length l -> firstn (i + 1) (upd l i v) = firstn i l ++ [v].
Proof.
  revert i; induction l as [|x l IH]; intros i H; [cbn in H; lia|].
  destruct i as [|i]; [reflexivity|]. cbn. f_equal. apply IH. cbn in H. lia.
Qed.

Lemma segment_split l a p b : a <= p -> p < b -> b <= length l ->
  segment l a b = segment l a p ++ nth p l 0 :: segment l (p + 1) b.
Proof.
  intros H1 H2 H3. unfold segment.
  apply nth_error_ext. intros i.
  destruct (Nat.lt_ge_cases i (b - a)) as [L|L].
  2:{ rewrite (proj2 (nth_error_None _ i)); [symmetry; apply nth_error_None|];
      rewrite ?app_length; cbn [length]; rewrite ?firstn_length, ?skipn_length; lia. }
  rewrite nth_error_firstn, nth_error_skipn by lia.
  destruct (Nat.lt_trichotomy i (p - a)) as [C|[C|C]].
  - rewrite nth_error_app1 by (rewrite firstn_length, skipn_length; lia).
    rewrite nth_error_firstn, nth_error_skipn by lia. reflexivity.
  - rewrite nth_error_app2 by (rewrite firstn_length, skipn_length; lia).
    rewrite firstn_length, skipn_length.
    replace (i - Nat.min (p - a) (length l - a)) with 0 by lia. cbn.
    replace (a + i) with p by lia. now apply nth_error_nth'; lia.
  - rewrite nth_error_app2 by (rewrite firstn_length, skipn_length; lia).
    rewrite firstn_length, skipn_length.
    replace (i - Nat.min (p - a) (length l - a)) with (S (i - (p - a) - 1)) by lia. cbn [nth_error].
    rewrite nth_error_firstn, nth_error_skipn by lia. f_equal. lia.
Qed.

Lemma segment_nil l a : segment l a a = [].
Proof. unfold segment. now rewrite Nat.sub_diag. Qed.

Lemma segment_length l a b : b <= length l -> length (segment l a b) = b - a.
Proof. intros H. unfold segment. rewrite firstn_length, skipn_length. lia. Qed.

Lemma segment_in l a b x : b <= length l -> In x (segment l a b) -> exists i, a <= i < b /\ nth i l 0 = x.
Proof.
  intros Hb H. apply (In_nth _ _ 0) in H. destruct H as (i & Hi & <-).
  rewrite segment_length in Hi by lia. exists (a + i). split; [lia|].
  unfold segment. rewrite nth_firstn, nth_skipn by lia. reflexivity.
Qed.

Lemma sorted_app_one (l : list nat) x :
  StronglySorted le l -> (forall y, In y l -> y <= x) -> StronglySorted le (l ++ [x]).
Proof.
  induction l as [|a l IH]; intros H Hx; cbn; [repeat constructor|].
  inversion H; subst. constructor.
  - apply IH; [assumption|]. intros; apply Hx; now right.
  - apply Forall_app. split; [assumption|]. constructor; [|constructor]. apply Hx. now left.
Qed.

Lemma ssorted_app_one (l : list nat) x :
  StronglySorted lt l -> (forall y, In y l -> y < x) -> StronglySorted lt (l ++ [x]).
Proof.
  induction l as [|a l IH]; intros H Hx; cbn; [repeat constructor|].
  inversion H; subst. constructor.
  - apply IH; [assumption|]. intros; apply Hx; now right.
  - apply Forall_app. split; [assumption|]. constructor; [|constructor]. apply Hx. now left.
Qed.

Lemma sort_nat_ss l : StronglySorted le (sort_nat l).
Proof.
  pose proof (sort_nat_sorted l) as H. revert H. generalize (sort_nat l) as m. clear l.
  induction m as [|x m IH]; intros H; [constructor|].
  assert (Hm : le_sorted m) by apply H.
  constructor; [now apply IH|].
  clear IH Hm. revert x H. induction m as [|y m IH]; intros x H; [constructor|].
  destruct H as [H1 H2]. constructor; [exact H1|]. apply IH.
  destruct H2 as [H2 H3]. split; [|exact H3]. destruct m as [|z m]; [exact I|lia].
Qed.

Lemma sort_nat_perm l : Permutation (sort_nat l) l.
Proof.
  induction l as [|x l IH]; [reflexivity|]. unfold sort_nat in *. cbn [fold_right].
  rewrite <- IH at 2. generalize (fold_right insert_nat [] l) as m. clear.
  induction m as [|y m IH]; cbn; [reflexivity|].
  destruct (x <=? y); [reflexivity|]. rewrite IH. apply perm_swap.
Qed.

Lemma sorted_leb_ok l : StronglySorted le l -> sorted_leb l = true.
Proof.
  induction 1 as [|x l H IH Hx]; [reflexivity|]. destruct l as [|y l]; [reflexivity|].
  cbn [sorted_leb] in *. rewrite IH. inversion Hx; subst.
  destruct (Nat.leb_spec x y); [reflexivity|lia].
Qed.

Lemma ss_lt_le l : StronglySorted lt l -> StronglySorted le l.
Proof.
  induction 1 as [|x l H IH Hx]; constructor; auto.
  eapply Forall_impl; [|exact Hx]. cbn. lia.
Qed.

Lemma binary_search_ok l v : StronglySorted le l ->
  binary_search l v = Ok (existsb (Nat.eqb v) l).
Proof. intros H. unfold binary_search. now rewrite sorted_leb_ok. Qed.

Lemma existsb_eqb_in v l : existsb (Nat.eqb v) l = true <-> In v l.
Proof.
  rewrite existsb_exists. split.
  - intros (x & H & E). apply Nat.eqb_eq in E. now subst.
  - intros H. exists v. split; [exact H|apply Nat.eqb_refl].
Qed.

(** * Range-minimum queries and sub-ranges *)
Section Lists.
  Variable acc : nat -> res nat.
  Variable l : list nat.
  Variable rmq : nat -> nat -> res nat.
  Hypothesis Hacc : forall i, i < length l -> acc i = Ok (nth i l 0).
  Hypothesis Hrmq : rmq_ok l rmq.

  Lemma scan_rmq_ok : forall n i lo pos min,
    i + n <= length l -> lo <= pos -> (min = None -> i = lo /\ pos = lo /\ 0 < n) ->
    (forall m, min = Some m -> lo <= pos < i /\ m = nth pos l 0 /\
       (forall j, lo <= j < i -> m <= nth j l 0) /\ (forall j, lo <= j < pos -> m < nth j l 0)) ->
    exists p, scan_rmq acc i n min pos = Ok p /\ is_rmq l lo (i + n - 1) p.
  Proof.
    induction n as [|n IH]; intros i lo pos min Hn Hlp H0 H1.
    - exists pos. split; [reflexivity|]. destruct min as [m|]; [|specialize (H0 eq_refl); lia].
      destruct (H1 m eq_refl) as (A & -> & C & D). split; [lia|]. split; intros j Hj; [apply C|apply D]; lia.
    - cbn [scan_rmq]. rewrite Hacc by lia. cbn [bind].
      replace (i + S n - 1) with (i + 1 + n - 1) by lia.
      destruct min as [m|].
      + destruct (H1 m eq_refl) as (A & -> & C & D).
        destruct (Nat.ltb_spec (nth i l 0) (nth pos l 0)) as [L|L].
        * apply (IH (i + 1) lo i (Some (nth i l 0))); [lia|lia|congruence|].
          intros m [= <-]. split; [lia|]. split; [reflexivity|]. split; intros j Hj.
          -- destruct (Nat.eq_dec j i) as [->|]; [lia|]. specialize (C j ltac:(lia)). lia.
          -- specialize (C j ltac:(lia)). lia.
        * apply (IH (i + 1) lo pos (Some (nth pos l 0))); [lia|lia|congruence|].
          intros m [= <-]. split; [lia|]. split; [reflexivity|]. split; intros j Hj.
          -- destruct (Nat.eq_dec j i) as [->|]; [lia|]. apply C. lia.
          -- apply D. lia.
      + destruct (H0 eq_refl) as (-> & -> & _).
        apply (IH (lo + 1) lo lo (Some (nth lo l 0))); [lia|lia|congruence|].
        intros m [= <-]. split; [lia|]. split; [reflexivity|]. split; intros j Hj; [|lia].
        replace j with lo by lia. lia.
  Qed.

  Lemma sub_rmq_ok a b : a <= b -> b < length l -> exists p, sub_rmq acc rmq a b = Ok p /\ is_rmq l a b p.
  Proof.
    intros H1 H2. unfold sub_rmq. destruct (b - a <=? SCAN_THRESHOLD); [|now apply Hrmq].
    unfold small_rmq.
    destruct (scan_rmq_ok (b + 1 - a) a a a None) as [p [E Hp]]; [lia|lia|lia|congruence|].
    exists p. split; [exact E|]. now replace (a + (b + 1 - a) - 1) with b in Hp by lia.
  Qed.

  Definition wf_range (e : scored_range) : Prop :=
    is_rmq l (sr_begin e) (sr_end e) (sr_min_pos e) /\ sr_end e < length l /\
    sr_min_val e = nth (sr_min_pos e) l 0.

  Lemma sub_range_ok a b : a <= b -> b < length l ->
    exists s, sub_range acc rmq a b = Ok s /\ wf_range s /\ sr_begin s = a /\ sr_end s = b.
  Proof.
    intros H1 H2. unfold sub_range. destruct (sub_rmq_ok a b H1 H2) as [p [E Hp]].
    rewrite E. cbn [bind]. rewrite Hacc by (destruct Hp; lia). cbn [bind].
    eexists. split; [reflexivity|]. unfold wf_range. cbn. auto.
  Qed.

  Lemma whole_range_ok a b : a < b -> b <= length l ->
    exists s, whole_range acc rmq a b = Ok s /\ wf_range s /\ sr_begin s = a /\ sr_end s + 1 = b.
  Proof.
    intros H1 H2. unfold whole_range. destruct b as [|b]; [lia|].
    destruct (Hrmq a b ltac:(lia) H2) as [p [E Hp]].
    rewrite E. cbn [bind]. rewrite Hacc by (destruct Hp; lia). cbn [bind].
    eexists. split; [reflexivity|]. unfold wf_range. cbn. repeat split; try apply Hp; lia.
  Qed.

  Lemma left_range_ok a p : a <= p -> p < length l ->
    exists o, left_range acc rmq a p = Ok o /\
      match o with
      | None => a = p
      | Some s => a < p /\ wf_range s /\ sr_begin s = a /\ sr_end s + 1 = p
      end.
  Proof.
    intros H1 H2. unfold left_range.
    destruct (Nat.ltb_spec 0 p); cbn [andb].
    - destruct (Nat.leb_spec a (p - 1)).
      + destruct (sub_range_ok a (p - 1)) as (s & E & A & B & C); [lia|lia|].
        rewrite E. cbn [bind]. eexists. split; [reflexivity|]. cbn. repeat split; auto; try lia; apply A.
      + eexists. split; [reflexivity|]. cbn. lia.
    - eexists. split; [reflexivity|]. cbn. lia.
  Qed.

  Lemma right_range_ok b p : p <= b -> b < length l ->
    exists o, right_range acc (length l) rmq b p = Ok o /\
      match o with
      | None => b = p
      | Some s => p < b /\ wf_range s /\ sr_begin s = p + 1 /\ sr_end s = b
      end.
  Proof.
    intros H1 H2. unfold right_range.
    destruct (Nat.ltb_spec p (length l - 1)); cbn [andb].
    - destruct (Nat.leb_spec (p + 1) b).
      + destruct (sub_range_ok (p + 1) b) as (s & E & A & B & C); [lia|lia|].
        rewrite E. cbn [bind]. eexists. split; [reflexivity|]. cbn. repeat split; auto; try lia; apply A.
      + eexists. split; [reflexivity|]. cbn. lia.
    - eexists. split; [reflexivity|]. cbn. lia.
  Qed.

  (** * unsorted_list::topk *)
  Definition sr_vals (e : scored_range) : list nat := segment l (sr_begin e) (sr_end e + 1).
  Definition osr_vals (o : option scored_range) : list nat :=
    match o with None => [] | Some s => sr_vals s end.

  Lemma copy_range_ok b : forall n i topk, b + i + n <= length l -> i + n <= length topk ->
    exists topk', copy_range acc b i n topk = Ok topk' /\ length topk' = length topk /\
      firstn (i + n) topk' = firstn i topk ++ segment l (b + i) (b + i + n).
  Proof.
    induction n as [|n IH]; intros i topk H1 H2.
    - exists topk. rewrite !Nat.add_0_r, segment_nil, app_nil_r. auto.
    - cbn [copy_range]. rewrite Hacc by lia. cbn [bind]. rewrite set_ok by lia. cbn [bind].
      destruct (IH (i + 1) (upd topk i (nth (b + i) l 0))) as (t & E & L & F); [lia|rewrite upd_length; lia|].
      exists t. split; [exact E|]. rewrite upd_length in L. split; [exact L|].
      replace (i + S n) with (i + 1 + n) by lia. rewrite F, firstn_upd by lia.
      rewrite <- app_assoc. f_equal. cbn [app].
      rewrite (segment_split l (b + i) (b + i)) by lia. rewrite segment_nil. cbn [app].
      f_equal. f_equal; lia.
  Qed.

  Section Unsorted.
    Variable std : heap_ops scored_range.
    Hypothesis Hstd : std_heap std.
    Variables k rb re n0 : nat.
    Hypothesis Hkn : k <= n0.
    Hypothesis Hre : re <= length l.

    Definition un_inv (s : list scored_range * list nat * nat) : Prop :=
      let '(q, topk, i) := s in
      length topk = n0 /\ i < k /\ Forall wf_range q /\ is_heap sr_min_val q /\
      Permutation (segment l rb re) (firstn i topk ++ flat_map sr_vals q) /\
      StronglySorted le (firstn i topk) /\
      (forall x y, In x (firstn i topk) -> In y (flat_map sr_vals q) -> x <= y).

    Definition un_post (r : nat * list nat) : Prop :=
      let '(i, topk) := r in
      length topk = n0 /\ i <= k /\ k_smallest k (segment l rb re) (firstn i topk).

    Lemma opt_push_ok q o :
      is_heap sr_min_val q -> Forall wf_range q ->
      match o with Some s => wf_range s | None => True end ->
      is_heap sr_min_val (opt_push std q o) /\ Forall wf_range (opt_push std q o) /\
      Permutation (flat_map sr_vals (opt_push std q o)) (osr_vals o ++ flat_map sr_vals q).
    Proof.
      intros H1 H2 H3. destruct o as [s|]; cbn [opt_push osr_vals]; [|cbn; auto].
      destruct (heap_push_ok sr_min_val std Hstd q s H1) as [A B].
      split; [exact A|]. split.
      - rewrite B. constructor; assumption.
      - rewrite (Permutation_flat_map sr_vals B). reflexivity.
    Qed.

    Lemma wf_range_min e y : wf_range e -> In y (sr_vals e) -> sr_min_val e <= y.
    Proof.
      intros (A & B & C) Hy. apply segment_in in Hy; [|lia]. destruct Hy as (i & Hi & <-).
      rewrite C. destruct A as (_ & A & _). apply A. lia.
    Qed.

    Lemma wf_range_split e l' r' : wf_range e ->
      match l' with None => sr_begin e = sr_min_pos e
                  | Some s => sr_begin e < sr_min_pos e /\ wf_range s /\ sr_begin s = sr_begin e /\ sr_end s + 1 = sr_min_pos e end ->
      match r' with None => sr_end e = sr_min_pos e
                  | Some s => sr_min_pos e < sr_end e /\ wf_range s /\ sr_begin s = sr_min_pos e + 1 /\ sr_end s = sr_end e end ->
      sr_vals e = osr_vals l' ++ sr_min_val e :: osr_vals r'.
    Proof.
      intros (A & B & C) Hl Hr. destruct A as (A & _). unfold sr_vals at 1.
      rewrite (segment_split l _ (sr_min_pos e)) by lia. rewrite C. f_equal; [|f_equal].
      - destruct l' as [s|]; cbn [osr_vals].
        + destruct Hl as (_ & _ & E1 & E2). unfold sr_vals. now rewrite E1, E2.
        + rewrite Hl. apply segment_nil.
      - destruct r' as [s|]; cbn [osr_vals].
        + destruct Hr as (_ & _ & E1 & E2). unfold sr_vals. now rewrite E1, E2.
        + rewrite Hr. apply segment_nil.
    Qed.

    Lemma un_step_ok s : un_inv s ->
      match unsorted_step acc (length l) rmq std k false s with
      | Ok (inl s') => un_inv s' /\ length (flat_map sr_vals (fst (fst s'))) < length (flat_map sr_vals (fst (fst s)))
      | Ok (inr r) => un_post r
      | _ => False
      end.
    Proof.
      destruct s as [[q topk] i]. intros (L & Hik & Hwf & Hh & Hp & Hs & Hc).
      cbn [unsorted_step fst snd].
      destruct q as [|e q].
      { cbn [flat_map] in Hp. rewrite app_nil_r in Hp. cbn. split; [exact L|]. split; [lia|].
        split; [exact Hs|]. split.
        - rewrite (Permutation_length Hp), firstn_length. lia.
        - exists []. rewrite app_nil_r. split; [exact Hp|]. intros x y _ []. }
      cbn [bind]. rewrite set_ok by lia. cbn [bind negb andb].
      pose proof (is_heap_top sr_min_val e q Hh) as [_ Hmin].
      assert (Hwe : wf_range e) by (inversion Hwf; assumption).
      assert (Hwq : Forall wf_range q) by (inversion Hwf; assumption).
      set (v := sr_min_val e) in *.
      assert (Hv : forall y, In y (flat_map sr_vals (e :: q)) -> v <= y).
      { intros y Hy. apply in_flat_map in Hy. destruct Hy as (f & Hf & Hy).
        transitivity (sr_min_val f); [now apply Hmin|]. apply wf_range_min; [|exact Hy].
        rewrite Forall_forall in Hwf. now apply Hwf. }
      assert (Hein : sr_begin e <= sr_min_pos e <= sr_end e /\ sr_end e < length l).
      { destruct Hwe as ((A & _) & B & _). auto. }
      destruct (left_range_ok (sr_begin e) (sr_min_pos e)) as (lo & El & Hl); [lia|lia|].
      destruct (right_range_ok (sr_end e) (sr_min_pos e)) as (ro & Er & Hr); [lia|lia|].
      pose proof (wf_range_split e lo ro Hwe Hl Hr) as Hsplit. fold v in Hsplit.
      assert (Hvin : In v (flat_map sr_vals (e :: q))).
      { cbn [flat_map]. rewrite Hsplit. rewrite !in_app_iff. left. right. now left. }
      assert (Hs' : StronglySorted le (firstn i topk ++ [v])).
      { apply sorted_app_one; [exact Hs|]. intros y Hy. now apply Hc. }
      set (R := osr_vals lo ++ osr_vals ro ++ flat_map sr_vals q).
      assert (HR : Permutation (flat_map sr_vals (e :: q)) (v :: R)).
      { cbn [flat_map]. rewrite Hsplit. unfold R. rewrite <- app_assoc. cbn [app].
        symmetry. apply Permutation_middle. }
      assert (Hp' : Permutation (segment l rb re) ((firstn i topk ++ [v]) ++ R)).
      { rewrite Hp, HR, <- app_assoc. reflexivity. }
      assert (Hc' : forall x y, In x (firstn i topk ++ [v]) -> In y R -> x <= y).
      { intros x y Hx Hy.
        assert (Hy' : In y (flat_map sr_vals (e :: q))) by (rewrite HR; now right).
        apply in_app_iff in Hx. destruct Hx as [Hx|[<-|[]]]; [now apply Hc|now apply Hv]. }
      destruct (Nat.eqb_spec (i + 1) k) as [Ek|Ek].
      { cbn. rewrite upd_length. split; [exact L|]. split; [lia|]. rewrite firstn_upd by lia.
        split; [exact Hs'|]. split.
        - rewrite app_length, firstn_length, (Permutation_length Hp'), !app_length, firstn_length. cbn. lia.
        - exists R. auto. }
      destruct (heap_pop_ok sr_min_val std Hstd e q (heap_below _ _ Hh)) as (q1 & E1 & H1 & P1).
      rewrite E1. cbn [bind]. rewrite El. cbn [bind]. rewrite Er. cbn [bind].
      assert (Hwq1 : Forall wf_range q1) by (now rewrite P1).
      destruct (opt_push_ok q1 lo H1 Hwq1) as (A1 & A2 & A3).
      { destruct lo; [apply Hl|exact I]. }
      destruct (opt_push_ok (opt_push std q1 lo) ro A1 A2) as (B1 & B2 & B3).
      { destruct ro; [apply Hr|exact I]. }
      assert (HPR : Permutation (flat_map sr_vals (opt_push std (opt_push std q1 lo) ro)) R).
      { rewrite B3, A3, (Permutation_flat_map sr_vals P1). unfold R.
        rewrite !app_assoc. apply Permutation_app_tail. apply Permutation_app_comm. }
      cbn [fst snd]. split.
      - unfold un_inv. rewrite upd_length. split; [exact L|]. split; [lia|].
        split; [exact B2|]. split; [exact B1|]. rewrite firstn_upd by lia.
        split; [now rewrite HPR|]. split; [exact Hs'|].
        intros x y Hx Hy. apply Hc'; [exact Hx|]. now rewrite <- HPR.
      - rewrite (Permutation_length HPR), (Permutation_length HR). cbn. lia.
    Qed.

    Lemma unsorted_loop_ok fuel topk s :
      1 <= k -> length topk = n0 -> re - rb + 1 < fuel -> wf_range s -> sr_begin s = rb -> sr_end s + 1 = re ->
      exists r topk', loop fuel (unsorted_step acc (length l) rmq std k false) (heap_push sr_min_val std [] s, topk, 0) = Ok (r, topk') /\
        length topk' = n0 /\ r <= k /\ k_smallest k (segment l rb re) (firstn r topk').
    Proof.
      intros Hk L Hf Hs Eb Ee.
      destruct (loop_ok (unsorted_step acc (length l) rmq std k false) un_inv
        (fun s => length (flat_map sr_vals (fst (fst s)))) un_post) with
        (fuel := fuel) (s := (heap_push sr_min_val std [] s, topk, 0)) as (r & Er & Hpost).
      + intros s' Hs'. exact (un_step_ok s' Hs').
      + destruct (heap_push_ok sr_min_val std Hstd [] s (heap_nil _)) as [A B].
        unfold un_inv. split; [exact L|]. split; [lia|]. split; [rewrite B; now constructor|].
        split; [exact A|]. cbn [firstn app]. split; [|split; [constructor|intros x y []]].
        rewrite (Permutation_flat_map sr_vals B). cbn [flat_map]. rewrite app_nil_r.
        unfold sr_vals. now rewrite Eb, Ee.
      + cbn [fst]. destruct (heap_push_ok sr_min_val std Hstd [] s (heap_nil _)) as [A B].
        rewrite (Permutation_length (Permutation_flat_map sr_vals B)). cbn [flat_map].
        rewrite app_nil_r. unfold sr_vals. rewrite Eb, Ee, segment_length by lia. lia.
      + destruct r as [r t]. exists r, t. split; [exact Er|]. exact Hpost.
    Qed.

    Lemma unsorted_topk_ok fuel topk :
      rb <= re -> 1 <= k -> length topk = n0 -> re - rb + 1 < fuel ->
      exists r topk', unsorted_topk acc (length l) rmq std k false fuel rb re topk = Ok (r, topk') /\
        length topk' = n0 /\ r <= k /\ k_smallest k (segment l rb re) (firstn r topk').
    Proof.
      intros Hr Hk L Hf. unfold unsorted_topk.
      destruct (Nat.leb_spec (re - rb) k) as [C|C].
      - destruct (copy_range_ok rb (re - rb) 0 topk) as (t & E & Lt & F); [lia|lia|].
        rewrite E. cbn [bind]. do 2 eexists. split; [reflexivity|].
        replace (rb + 0) with rb in F by lia. replace (rb + (re - rb)) with re in F by lia.
        cbn [firstn app Nat.add] in F.
        rewrite F.
        assert (Ls : length (sort_nat (segment l rb re)) = re - rb).
        { rewrite (Permutation_length (sort_nat_perm _)). now apply segment_length. }
        split; [rewrite app_length, Ls, skipn_length; lia|]. split; [lia|].
        rewrite <- Ls at 1. rewrite firstn_app, firstn_all, Nat.sub_diag. cbn [firstn]. rewrite app_nil_r.
        split; [apply sort_nat_ss|]. split.
        + rewrite Ls, segment_length by lia. lia.
        + exists []. rewrite app_nil_r. split; [symmetry; apply sort_nat_perm|]. intros x y _ [].
      - destruct (whole_range_ok rb re) as (s & E & Hs & Eb & Ee); [lia|lia|].
        rewrite E. cbn [bind].
        exact (unsorted_loop_ok fuel topk s Hk L Hf Hs Eb Ee).
    Qed.
  End Unsorted.
End Lists.
