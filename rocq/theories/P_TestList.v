(** Proofs about the test of unsorted_list. *)
From Coq Require Import Sorted Permutation.
From Verif Require Import Base S_Order S_Vocab S_Completions S_Text S_Collection S_Build S_Files S_Containers S_Iter S_Intersect S_TopK.
From Verif Require Import M_Heap S_Heap P_Heap M_TopK M_Parse P_Parse P_TopK P_TopKDistinct P_Unique M_Containers M_Auto1 M_Cvec M_CompactEf M_Real M_Input M_Save M_Stored M_Tests M_TestList.
From Verif Require Import P_Blocked P_Query P_Auto1 P_Auto4 P_Collection P_Containers P_Real P_Build P_Input P_Files P_Save P_Stored P_Fit P_Fit2 P_Fit3 P_BenchDict P_Tests P_TestIndex.
Local Open Scope nat_scope.

(** ** Sorted lists *)
Lemma ss_le_perm a : forall b, StronglySorted le a -> StronglySorted le b -> Permutation a b -> a = b.
Proof.
  induction a as [|x a IH]; intros b Ha Hb P; [now apply Permutation_nil in P|].
  destruct b as [|y b]; [apply Permutation_sym, Permutation_nil in P; discriminate|].
  inversion Ha as [|? ? Ha' Hx]; subst. inversion Hb as [|? ? Hb' Hy]; subst. rewrite Forall_forall in Hx, Hy.
  assert (x = y).
  { assert (H1 : In x (y :: b)) by (rewrite <- P; now left). assert (H2 : In y (x :: a)) by (rewrite P; now left).
    destruct H1 as [E|H1]; [congruence|]. destruct H2 as [E|H2]; [congruence|]. specialize (Hx _ H2). specialize (Hy _ H1). lia. }
  subst y. f_equal. apply IH; auto. now apply Permutation_cons_inv in P.
Qed.
Lemma ss_app_le a b : StronglySorted le a -> StronglySorted le b -> (forall x y, In x a -> In y b -> x <= y) -> StronglySorted le (a ++ b).
Proof.
  induction 1 as [|x a Ha IH Hx]; intros Hb H; cbn [app]; [exact Hb|]. constructor; [apply IH; [exact Hb|]; intros; apply H; [now right|assumption]|].
  apply Forall_app. split; [exact Hx|]. apply Forall_forall. intros y Hy. apply H; [now left|exact Hy].
Qed.
Lemma k_smallest_eq k all out : k_smallest k all out -> out = firstn k (sort_nat all).
Proof.
  intros (Hs & Hl & rest & P & Hle). assert (E : out ++ sort_nat rest = sort_nat all).
  { apply ss_le_perm; [|apply sort_nat_ss|].
    - apply ss_app_le; [exact Hs|apply sort_nat_ss|]. intros x y Hx Hy. apply Hle; [exact Hx|]. now rewrite <- (sort_nat_perm rest).
    - rewrite (sort_nat_perm all), P. apply Permutation_app_head. apply sort_nat_perm. }
  rewrite <- E. pose proof (Permutation_length P) as HP. rewrite app_length in HP. destruct (Nat.le_gt_cases k (length all)) as [L|L].
  - replace k with (length out) by lia. now rewrite firstn_app, firstn_all, Nat.sub_diag, app_nil_r.
  - assert (rest = []) by (apply length_zero_iff_nil; lia). subst rest. cbn. rewrite app_nil_r. symmetry. apply firstn_all2. lia.
Qed.
Lemma ss_lt_prefix u : forall out, StronglySorted lt u -> StronglySorted lt out -> (forall x, In x out -> In x u) ->
  (forall y, In y u -> In y out \/ forall x, In x out -> x < y) -> out = firstn (length out) u.
Proof.
  induction u as [|x u IH]; intros out Hu Ho H1 H2.
  - destruct out as [|y out]; [reflexivity|]. destruct (H1 y). now left.
  - destruct out as [|y out]; [reflexivity|]. inversion Hu as [|? ? Hu' Hx]; subst. inversion Ho as [|? ? Ho' Hy]; subst. rewrite Forall_forall in Hx, Hy.
    assert (x = y).
    { destruct (H1 y (or_introl eq_refl)) as [E|Hin]; [exact E|]. specialize (Hx _ Hin). destruct (H2 x (or_introl eq_refl)) as [[E|Hin2]|H3]; [congruence|specialize (Hy _ Hin2); lia|].
      specialize (H3 y (or_introl eq_refl)). lia. }
    subst y. cbn [length firstn]. f_equal. apply IH; [exact Hu'|exact Ho'| |].
    + intros z Hz. destruct (H1 z (or_intror Hz)) as [E|H]; [|exact H]. subst z. specialize (Hy _ Hz). lia.
    + intros z Hz. destruct (H2 z (or_intror Hz)) as [[E|H]|H]; [subst z; specialize (Hx _ Hz); lia|now left|]. right. intros w Hw. apply H. now right.
Qed.
Lemma uniq_sort_ok l : StronglySorted lt (uniq (sort_nat l)) /\ forall x, In x (uniq (sort_nat l)) <-> In x l.
Proof. destruct (deduplicate_ok l) as [H1 H2]. split; [now apply lt_sorted_increasing|exact H2]. Qed.
Lemma k_smallest_distinct_eq k all out : k_smallest_distinct k all out -> out = firstn k (uniq (sort_nat all)).
Proof.
  intros (Hs & Hl & H1 & H2). destruct (uniq_sort_ok all) as [Hu Hin]. set (u := uniq (sort_nat all)) in *.
  assert (E : out = firstn (length out) u).
  { apply ss_lt_prefix; [exact Hu|exact Hs| |]; intros x Hx; rewrite Hin in *; auto. destruct (H2 x Hx) as [H|[_ H]]; auto. }
  destruct (Nat.eq_dec (length out) k) as [Ek|Ek]; [now rewrite <- Ek|].
  assert (El : length u <= length out).
  { apply NoDup_incl_length; [|intros x Hx; apply Hin in Hx; destruct (H2 x Hx) as [H|[H _]]; [exact H|congruence]].
    clear -Hu. induction Hu as [|x u Hu IH Hx]; constructor; [|exact IH]. intros H. rewrite Forall_forall in Hx. specialize (Hx _ H). lia. }
  rewrite firstn_all2 in E by lia. rewrite E. symmetry. apply firstn_all2. lia.
Qed.
Lemma ss_lt_nodup l : StronglySorted lt l -> NoDup l.
Proof. induction 1 as [|x u Hu IH Hx]; constructor; [|exact IH]. intros H. rewrite Forall_forall in Hx. specialize (Hx _ H). lia. Qed.
Lemma uniq_nodup l : length (uniq (sort_nat l)) = length l <-> NoDup l.
Proof.
  destruct (uniq_sort_ok l) as [Hu Hin]. split; intros H.
  - apply (@NoDup_incl_NoDup _ (uniq (sort_nat l)) l); [now apply ss_lt_nodup|lia|]. intros x Hx. now apply Hin.
  - apply Nat.le_antisymm.
    + apply NoDup_incl_length; [now apply ss_lt_nodup|]. intros x Hx. now apply Hin.
    + apply NoDup_incl_length; [exact H|]. intros x Hx. now apply Hin.
Qed.
Lemma uniq_same l : NoDup l -> uniq (sort_nat l) = sort_nat l.
Proof.
  intros H. destruct (uniq_sort_ok l) as [Hu Hin]. apply ss_le_perm.
  - now apply ss_lt_le.
  - apply sort_nat_ss.
  - apply NoDup_Permutation; [now apply ss_lt_nodup|now rewrite (sort_nat_perm l)|]. intros x. rewrite Hin. now rewrite (sort_nat_perm l).
Qed.
Lemma same_nats n (topk e : list nat) : n <= length topk -> (length e =? n) && forallb (fun p => fst p =? snd p) (combine (firstn n topk) e) = true <-> firstn n topk = e.
Proof.
  intros Hn. rewrite andb_true_iff, Nat.eqb_eq. assert (L : length (firstn n topk) = n) by (rewrite firstn_length; lia). split.
  - intros [H0 H2]. assert (H1 : length e = length (firstn n topk)) by lia. clear -H1 H2. revert e H1 H2. induction (firstn n topk) as [|x l IH]; intros [|y e] H1 H2; try discriminate; [reflexivity|].
    cbn [combine forallb fst snd] in H2. apply andb_true_iff in H2 as [E H2]. apply Nat.eqb_eq in E. subst y. f_equal. apply IH; [now injection H1|exact H2].
  - intros <-. split; [exact L|]. clear. induction (firstn n topk) as [|x l IH]; [reflexivity|]. cbn [combine forallb fst snd]. now rewrite Nat.eqb_refl.
Qed.

(** ** One query *)
(** Short ranges: the sorted range, with or without [unique]. *)
Lemma short_topk acc l rmq std k unique fuel a b topk : (forall i, i < length l -> acc i = Ok (nth i l 0)) -> a <= b -> b <= length l -> b - a <= k -> k <= length topk ->
  exists topk', unsorted_topk acc (length l) rmq std k unique fuel a b topk = Ok (b - a, topk') /\ length topk' = length topk /\ firstn (b - a) topk' = sort_nat (segment l a b).
Proof.
  intros Hacc Hab Hb Hk Hn. unfold unsorted_topk. destruct (Nat.leb_spec (b - a) k) as [_|C]; [|lia].
  destruct (copy_range_ok acc l Hacc a (b - a) 0 topk) as (t & E & Lt & F); [lia|lia|]. rewrite E. cbn [bind]. eexists. split; [reflexivity|].
  replace (a + 0) with a in F by lia. replace (a + (b - a)) with b in F by lia. cbn [firstn app Nat.add] in F. rewrite F.
  assert (Ls : length (sort_nat (segment l a b)) = b - a) by (rewrite (Permutation_length (sort_nat_perm _)); now apply segment_length).
  split; [rewrite app_length, Ls, skipn_length; lia|]. rewrite <- Ls at 1. now rewrite firstn_app, firstn_all, Nat.sub_diag, app_nil_r.
Qed.

(** The ranges on which the two ways to find the smallest values agree. *)
Definition agrees (unique : bool) (l : list nat) (r : nat * nat) : Prop := unique = false \/ fst r + 10 < snd r \/ NoDup (segment l (fst r) (snd r)).
Definition in_list (l : list nat) (r : nat * nat) : Prop := fst r <= snd r <= length l.

Lemma check_range_ok std unique ul l r topk : std_heap std -> ulist_holds l ul -> in_list l r -> length topk = 15 ->
  exists b topk', check_range std unique ul l (length l) r topk = Ok (b, topk') /\ length topk' = 15 /\ (b = true <-> agrees unique l r).
Proof.
  intros Hstd (Hacc & Hsize & Hrmq) Hr L. destruct r as [a b]. unfold in_list, agrees in *. cbn [fst snd] in *. unfold check_range, naive_topk.
  replace ((b - a <=? length l) && (b <=? length l)) with true by (symmetry; apply andb_true_iff; rewrite !Nat.leb_le; lia). cbn [bind]. fold (segment l a b). rewrite Hsize.
  set (e := firstn 10 (if unique then uniq (sort_nat (segment l a b)) else sort_nat (segment l a b))).
  enough (H : exists n topk', unsorted_topk (ul_acc ul) (length l) (ul_rmq ul) std 10 unique (length l + 2) a b topk = Ok (n, topk') /\ length topk' = 15 /\ n <= 15 /\
    (firstn n topk' = e <-> (unique = false \/ a + 10 < b \/ NoDup (segment l a b)))).
  { destruct H as (n & topk' & -> & L' & Hn & He). cbn [bind]. eexists _, topk'. split; [reflexivity|]. split; [exact L'|]. rewrite same_nats by lia. exact He. }
  destruct (Nat.le_gt_cases b (a + 10)) as [C|C].
  - destruct (short_topk (ul_acc ul) l (ul_rmq ul) std 10 unique (length l + 2) a b topk) as (t & E & Lt & F); [exact Hacc|lia|lia|lia|lia|].
    exists (b - a), t. split; [exact E|]. split; [lia|]. split; [lia|]. rewrite F.
    assert (Ls : length (sort_nat (segment l a b)) = b - a) by (rewrite (Permutation_length (sort_nat_perm _)); apply segment_length; lia).
    assert (Lg : length (segment l a b) = b - a) by (apply segment_length; lia).
    destruct unique; unfold e.
    + split; [|intros [H|[H|H]]; [discriminate|lia|rewrite uniq_same by exact H; symmetry; apply firstn_all2; lia]].
      intros H. right. right. apply uniq_nodup. apply Nat.le_antisymm.
      * destruct (uniq_sort_ok (segment l a b)) as [Hu Hin]. apply NoDup_incl_length; [now apply ss_lt_nodup|]. intros x Hx. now apply Hin.
      * apply (f_equal (@length nat)) in H. rewrite firstn_length in H. lia.
    + split; [now left|]. intros _. symmetry. apply firstn_all2. lia.
  - destruct unique.
    + destruct (unique_topk_ok (ul_acc ul) l (ul_rmq ul) Hacc Hrmq std Hstd 10 a b 15 ltac:(lia) (proj2 Hr) (length l + 2) topk) as (n & t & E & Lt & Hn & Hk); [lia|lia|exact L|lia|].
      exists n, t. split; [exact E|]. split; [exact Lt|]. split; [lia|]. split; [intros _; right; left; lia|]. intros _. now apply k_smallest_distinct_eq.
    + destruct (unsorted_topk_ok (ul_acc ul) l (ul_rmq ul) Hacc Hrmq std Hstd 10 a b 15 ltac:(lia) (proj2 Hr) (length l + 2) topk) as (n & t & E & Lt & Hn & Hk); [lia|lia|exact L|lia|].
      exists n, t. split; [exact E|]. split; [exact Lt|]. split; [lia|]. split; [now left|]. intros _. now apply k_smallest_eq.
Qed.

Section Whole.
  Context (tail : N) (heap : forall A, heap_ops A) (sort : list ceit -> list ceit).
  Hypothesis Htail : (tail < 2 ^ 64)%N.
  Hypothesis Hheap : forall A, std_heap (heap A).
  Hypothesis Hsort : sorts_by_size ce_ops sort.
  Let K := real_containers tail heap sort.
  Lemma HK : containers_ok K. Proof using Htail Hheap Hsort. exact (real_containers_ok tail heap sort Htail Hheap Hsort). Qed.
  Lemma throws0 : throws_on_width0 K. Proof. intros l. reflexivity. Qed.

  Lemma test_list_ok unique old queries l : l <> [] -> (N.of_nat (length l) < 1073741823)%N -> Forall (fun x => (N.of_nat x < 4294967295)%N) l ->
    (forall d, ulist_build_d l = Ok d -> fit_ulist d) -> (forall r, In r (queries (length l)) -> in_list l r) ->
    ((exists x, In x l /\ 0 < x) -> exists b, test_list tail (heap scored_range) unique old queries l (length l) = Ok b /\ (b = true <-> Forall (agrees unique l) (queries (length l)))) /\
    (~ (exists x, In x l /\ 0 < x) -> test_list tail (heap scored_range) unique old queries l (length l) = Exn).
  Proof using Htail Hheap Hsort.
    intros Hne Hlen Hl Hfit Hq. unfold test_list. destruct (ulist_exact K HK throws0 l Hne Hlen Hl) as [(_ & Hp)|(E & Hp)].
    - split; [intros _|tauto]. destruct (ulist_build_ok K HK l Hlen Hl Hp) as (ul & E & Hul). unfold K in E. rewrite ulist_view in E.
      destruct (ulist_build_d l) as [d| | |]; try discriminate. cbn [bind] in *. injection E as <-.
      assert (Es : cv_size (ud_list d) = length l) by exact (proj1 (proj2 Hul)). rewrite Es, Nat.eqb_refl.
      pose proof (ulist_good d (Hfit d eq_refl) old []) as Hg. rewrite app_nil_r in Hg. unfold load_file, save_file. rewrite Hg. cbn [bind].
      destruct (all_pass_ok (check_range (heap scored_range) unique (ulist_of tail d) l (length l)) (fun s => length s = 15) (agrees unique l) (queries (length l))) with (s := repeat 0 15) as (b & s' & -> & _ & Hb).
      + intros r s Hr Hs. destruct (check_range_ok (heap scored_range) unique (ulist_of tail d) l r s (Hheap _) Hul (Hq r Hr) Hs) as (b & s' & E & L & Hb). eauto.
      + reflexivity.
      + cbn [bind]. eauto.
    - split; [intros H; destruct (Hp H)|intros _]. unfold K in E. rewrite ulist_view in E. destruct (ulist_build_d l) as [d| | |]; try discriminate. reflexivity.
  Qed.

  Context (c : collection) (Hwf : wf_collection c) (t : texts) (Ht : holds_collection c t).
  Lemma test_docs_ok old queries fuel junk : length (t_mapped t) < fuel -> (forall r, In r (queries (length (docs c))) -> in_list (docs c) r) ->
    (some_doc_positive c -> test_docs tail (heap scored_range) old queries fuel junk t = Ok true) /\ (~ some_doc_positive c -> test_docs tail (heap scored_range) old queries fuel junk t = Exn).
  Proof using Htail Hheap Hsort Hwf Ht.
    intros Hf Hq. unfold test_docs. destruct (load_full c Hwf t Ht) as (p & -> & _ & Ec & _). cbn [bind].
    destruct (read_mapped_ok _ fuel junk _ (coll_records_valid c Hwf) (hc_mapped _ _ Ht) Hf) as (e & -> & _). cbn [bind].
    rewrite (recs_docs c Hwf), Ec, Nat2N.id, <- (wf_docs_len c Hwf).
    destruct (test_list_ok false old queries (docs c)) as [H1 H2].
    - intros E. pose proof (comps_nonempty c Hwf) as H. pose proof (wf_docs_len c Hwf) as H2. rewrite E in H2. cbn in H2. lia.
    - now apply docs_few.
    - eapply Forall_impl; [|apply (wf_docs_lt c Hwf)]. cbn. intros d' Hd'. pose proof (wf_universe c Hwf). lia.
    - intros d. now apply docs_c.
    - exact Hq.
    - split; [|exact H2]. intros Hp. destruct (H1 Hp) as (b & -> & Hb). f_equal. apply Hb. apply Forall_forall. intros r _. now left.
  Qed.

  Definition firsts : list nat := map (fun l => hd 0 l) (postings c).
  Lemma test_minimal_ok old queries junk : (forall r, In r (queries (length firsts)) -> in_list firsts r) ->
    (some_term_not_in_doc0 c -> exists b, test_minimal tail (heap scored_range) old queries junk t = Ok b /\ (b = true <-> Forall (agrees true firsts) (queries (length firsts)))) /\
    (~ some_term_not_in_doc0 c -> test_minimal tail (heap scored_range) old queries junk t = Exn).
  Proof using Htail Hheap Hsort Hwf Ht.
    intros Hq. unfold test_minimal. destruct (load_full c Hwf t Ht) as (p & -> & Et & _). cbn [bind].
    rewrite Et, Nat2N.id, (read_inverted c Hwf t Ht tail Htail), to_nat_lists.
    assert (Em : minimal_doc_ids (postings c) = Ok firsts) by (apply minimal_doc_ids_ok; eapply Forall_impl; [|exact (postings_ok c Hwf)]; cbn; tauto).
    rewrite Em. cbn [bind]. assert (El : length firsts = length (terms c)) by (unfold firsts; rewrite map_length; now apply postings_length).
    rewrite El, N.eqb_refl, <- El.
    destruct (test_list_ok true old queries firsts) as [H1 H2].
    - intros E. rewrite E in El. cbn in El. pose proof (terms_nonempty c Hwf). lia.
    - exact (minimals_few c Hwf).
    - apply Forall_map. eapply Forall_impl; [|exact (postings_ok c Hwf)]. cbn. intros l (Hl & _ & Hlt). destruct l as [|x l]; [congruence|]. inversion Hlt; subst. cbn. pose proof (wf_universe c Hwf). lia.
    - intros d. now apply (min_c c Hwf firsts).
    - exact Hq.
    - pose proof (minimals_exact K HK throws0 c Hwf) as Hm. split.
      + intros Hs. apply H1. exact (proj2 (minimals_ok c Hwf Hs)).
      + intros Hs. destruct Hm as [(_ & Hm)|(E & _)]; [destruct (Hs Hm)|]. apply H2. intros (x & Hx & Hp). apply Hs.
        destruct (ulist_exact K HK throws0 firsts) as [((ul & E') & _)|(_ & Hn)].
        * intros E'. rewrite E' in El. cbn in El. pose proof (terms_nonempty c Hwf). lia.
        * exact (minimals_few c Hwf).
        * apply Forall_map. eapply Forall_impl; [|exact (postings_ok c Hwf)]. cbn. intros l (Hl & _ & Hlt). destruct l as [|y l]; [congruence|]. inversion Hlt; subst. cbn. pose proof (wf_universe c Hwf). lia.
        * unfold firsts in E'. rewrite E in E'. discriminate.
        * destruct Hn. eauto.
  Qed.
End Whole.

(** The random ranges. *)
Lemma gen_ranges_ok {St} (draw : nat -> nat -> St -> nat * St) : (forall lo hi s, lo <= hi -> lo <= fst (draw lo hi s) <= hi) -> forall num n s,
  length (fst (gen_ranges draw num n s)) = num /\ forall a b, In (a, b) (fst (gen_ranges draw num n s)) -> a <= b <= n.
Proof.
  intros Hd. induction num as [|num IH]; intros n s; cbn [gen_ranges]; [split; [reflexivity|intros a b []]|].
  pose proof (Hd 0 n s (Nat.le_0_l n)) as Hx. destruct (draw 0 n s) as [x s1]. cbn [fst] in Hx.
  pose proof (Hd 0 n s1 (Nat.le_0_l n)) as Hy. destruct (draw 0 n s1) as [y s2]. cbn [fst] in Hy.
  destruct (IH n s2) as [El Hin]. destruct (gen_ranges draw num n s2) as [rs s3]. cbn [fst] in *. split; [cbn [length]; now rewrite El|].
  intros a b [E|H]; [|now apply Hin]. destruct (Nat.ltb_spec x y); injection E as <- <-; lia.
Qed.

(** A generator that gives the numbers of a list, as far as they lie in the interval. *)
Definition list_draw (lo hi : nat) (s : list nat) : nat * list nat := (Nat.max lo (Nat.min hi (hd 0 s)), tl s).
Lemma list_draw_ok lo hi s : lo <= hi -> lo <= fst (list_draw lo hi s) <= hi.
Proof. intros H. unfold list_draw. cbn [fst]. lia. Qed.
Lemma gen_ranges_any n rs : (forall a b, In (a, b) rs -> a <= b <= n) ->
  exists St (draw : nat -> nat -> St -> nat * St) s,
    (forall lo hi s, lo <= hi -> lo <= fst (draw lo hi s) <= hi) /\ fst (gen_ranges draw (length rs) n s) = rs.
Proof.
  intros H. exists (list nat), list_draw, (flat_map (fun r => [fst r; snd r]) rs). split; [exact list_draw_ok|].
  induction rs as [|[a b] rs IH]; [reflexivity|]. cbn [length flat_map gen_ranges app fst snd]. unfold list_draw at 1 2. cbn [hd tl].
  assert (Hab : a <= b <= n) by (apply H; now left). specialize (IH (fun x y Hin => H x y (or_intror Hin))).
  destruct (gen_ranges list_draw (length rs) n (flat_map (fun r => [fst r; snd r]) rs)) as [rs' s']. cbn [fst] in *. subst rs'. f_equal.
  replace (Nat.max 0 (Nat.min n a)) with a by lia. replace (Nat.max 0 (Nat.min n b)) with b by lia.
  destruct (Nat.ltb_spec a b); [reflexivity|]. f_equal; lia.
Qed.
