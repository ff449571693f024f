(** Proofs about the test of the blocked inverted index. *)
From Coq Require Import Sorted Permutation.
From Verif Require Import Base S_Order S_Vocab S_Completions S_Text S_Trie S_Collection S_Files S_Containers S_Iter S_Intersect S_Blocked S_TestBlocked.
From Verif Require Import M_Heap S_Heap P_Heap M_Iter M_Intersect P_Intersect M_Containers M_Trie M_CompactEf M_InvIndex M_EfSeq M_Blocked M_Real M_Input M_Stored M_Tests M_TestIndex M_TestBlocked.
From Verif Require Import M_Parse P_Parse P_Query P_Auto4 P_InvIndex P_Containers P_Real P_Collection P_Input P_Files P_Stored P_Fit3 P_Blocked P_BlockFinal P_BenchDict P_Tests P_TestIndex.
Local Open Scope nat_scope.

Lemma increasing_ext a b : increasing a -> increasing b -> (forall x, In x a <-> In x b) -> a = b.
Proof.
  intros Ha Hb H. assert (E : map N.of_nat a = map N.of_nat b).
  { apply sorted_N_eq; [now apply increasing_N..|]. intros x. rewrite !in_map_iff. split; intros (y & E & Hy); exists y; (split; [exact E|]); now apply H. }
  revert E. clear. revert b. induction a as [|x a IH]; intros [|y b] E; try discriminate; [reflexivity|]. cbn [map] in E. injection E as E1 E2. f_equal; [lia|now apply IH].
Qed.

(** Two iterators side by side: do they yield the same? *)
Lemma same_streams_ok {A B} (ops1 : stream_ops A) (ops2 : stream_ops B) r1 : forall r2 x y fuel,
  yields ops1 x r1 -> yields ops2 y r2 -> (forall y, s_has_next ops2 y = false -> ~ In (s_deref ops2 y) r1) -> length r1 < fuel ->
  exists b, same_streams ops1 ops2 fuel x y = Ok b /\ (b = true <-> r1 = r2).
Proof.
  induction r1 as [|d r1 IH]; intros r2 x y fuel H1 H2 Hend Hf; (destruct fuel as [|fuel]; [cbn in Hf; lia|]); cbn [same_streams].
  - cbn in H1. rewrite H1. destruct r2 as [|e r2]; cbn in H2; [rewrite H2; now exists true|]. destruct H2 as (-> & _). exists false. split; [reflexivity|]. split; discriminate.
  - destruct H1 as (-> & -> & x' & Ex & H1). destruct r2 as [|e r2]; cbn in H2.
    + specialize (Hend y H2). destruct (Nat.eqb_spec (s_deref ops2 y) d) as [E|_]; [exfalso; apply Hend; now left|]. exists false. split; [reflexivity|]. split; discriminate.
    + destruct H2 as (_ & -> & y' & Ey & H2). destruct (Nat.eqb_spec e d) as [->|Hne].
      * rewrite Ex. cbn [bind]. rewrite Ey. cbn [bind]. destruct (IH r2 x' y' fuel H1 H2) as (b & -> & Hb); [|cbn in Hf; lia|].
        -- intros z Hz Hin. apply (Hend z Hz). now right.
        -- exists b. split; [reflexivity|]. rewrite Hb. split; congruence.
      * exists false. split; [reflexivity|]. split; congruence.
Qed.

Lemma in_block_dec bounds i t : {in_block bounds i t} + {~ in_block bounds i t}.
Proof.
  unfold in_block. destruct (lt_dec i (length bounds)); [|right; tauto]. destruct (le_dec 1 t); [|right; lia]. destruct (le_dec t (nth i bounds 0)); [|right; lia].
  destruct (lt_dec 0 i); [destruct (lt_dec (nth (i - 1) bounds 0) t)|]; [left; lia|right; intros (_ & _ & H); auto|left; lia].
Qed.

(** The random queries. *)
Section Random.
  Context {St : Type} (draw : nat -> nat -> St -> nat * St) (Hdraw : forall lo hi s, lo <= hi -> lo <= fst (draw lo hi s) <= hi).
  Lemma draw_ids_ok hi : 1 <= hi -> forall n s, length (fst (draw_ids draw n hi s)) = n /\ Forall (fun x => 1 <= x <= hi) (fst (draw_ids draw n hi s)).
  Proof using Hdraw.
    intros Hhi. induction n as [|n IH]; intros s; cbn [draw_ids]; [split; [reflexivity|constructor]|].
    pose proof (Hdraw 1 hi s Hhi) as Hx. destruct (draw 1 hi s) as [x s1]. specialize (IH s1). destruct (draw_ids draw n hi s1) as [q s2]. cbn [fst length] in *. destruct IH as [<- IH]. split; [reflexivity|]. now constructor.
  Qed.
  Lemma dedup_length q : length (deduplicate q) <= length q.
  Proof.
    destruct (deduplicate_ok q) as [S I]. apply NoDup_incl_length; [|intros x; apply I]. apply lt_sorted_increasing in S. clear I. induction S as [|x l _ IH Hx]; constructor; [|exact IH].
    rewrite Forall_forall in Hx. intros Hin. specialize (Hx _ Hin). lia.
  Qed.
  Lemma gen_query_ok n hi : 1 <= hi -> forall fuel s q s', gen_query draw fuel n hi s = Ok (q, s') -> 2 <= length q <= n /\ increasing q /\ Forall (fun x => 1 <= x <= hi) q.
  Proof using Hdraw.
    intros Hhi. induction fuel as [|fuel IH]; intros s q s' E; cbn [gen_query] in E; [discriminate|]. destruct (draw_ids_ok hi Hhi n s) as [Hl Hr].
    destruct (draw_ids draw n hi s) as [q0 s1]. cbn [fst] in *. destruct (Nat.leb_spec 2 (length (deduplicate q0))) as [H|H]; [|exact (IH _ _ _ E)].
    injection E as <- _. destruct (deduplicate_ok q0) as [S I]. split; [pose proof (dedup_length q0); lia|]. split; [now apply lt_sorted_increasing|].
    rewrite Forall_forall in *. intros x Hx. apply Hr. now apply I.
  Qed.
  Lemma gen_random_queries_ok fuel max_terms hi : 2 <= max_terms -> 1 <= hi -> forall num s qs s', gen_random_queries draw fuel num max_terms hi s = Ok (qs, s') ->
    length qs = num /\ Forall (fun q => 2 <= length q <= max_terms /\ increasing q /\ Forall (fun x => 1 <= x <= hi) q) qs.
  Proof using Hdraw.
    intros Hm Hhi. induction num as [|num IH]; intros s qs s' E; cbn [gen_random_queries] in E; [injection E as <- _; split; [reflexivity|constructor]|].
    pose proof (Hdraw 2 max_terms s Hm) as Hn. destruct (draw 2 max_terms s) as [n s1]. cbn [fst] in Hn. destruct (gen_query draw fuel n hi s1) as [[q s2]| | |] eqn:Eq; try discriminate. cbn [bind] in E.
    destruct (gen_random_queries draw fuel num max_terms hi s2) as [[qs2 s3]| | |] eqn:Eqs; try discriminate. cbn [bind] in E. injection E as <- _.
    destruct (IH _ _ _ Eqs) as [Hl Hf]. destruct (gen_query_ok n hi Hhi _ _ _ _ Eq) as (H1 & H2 & H3). split; [cbn; now rewrite Hl|]. constructor; [|exact Hf]. split; [lia|]. auto.
  Qed.
  Lemma one_term_again n : forall fuel s, gen_query draw fuel n 1 s = Fuel.
  Proof using Hdraw.
    induction fuel as [|fuel IH]; intros s; cbn [gen_query]; [reflexivity|]. destruct (draw_ids_ok 1 (Nat.le_refl 1) n s) as [_ Hr]. destruct (draw_ids draw n 1 s) as [q0 s1]. cbn [fst] in Hr.
    destruct (Nat.leb_spec 2 (length (deduplicate q0))) as [H|H]; [exfalso|apply IH]. destruct (deduplicate_ok q0) as [S I]. apply lt_sorted_increasing in S.
    assert (Hd : Forall (fun x => 1 <= x <= 1) (deduplicate q0)) by (rewrite Forall_forall in *; intros x Hx; apply Hr; now apply I). clear I Hr.
    destruct (deduplicate q0) as [|x [|y l]]; cbn in H; [lia..|]. inversion S as [|? ? _ Hxy]; subst. inversion Hxy; subst. inversion Hd as [|? ? Hx Hd2]; subst. inversion Hd2; subst. lia.
  Qed.
  Lemma one_term_ends_not fuel num max_terms s : gen_random_queries draw fuel (S num) max_terms 1 s = Fuel.
  Proof using Hdraw. cbn [gen_random_queries]. destruct (draw 2 max_terms s) as [n s1]. now rewrite one_term_again. Qed.
End Random.

(** Where the blocks end. *)
Lemma load_next posts pre l post a : posts = pre ++ l :: post -> a <= length pre -> S_TestBlocked.load posts a (length pre + 1) = S_TestBlocked.load posts a (length pre) + length l.
Proof.
  intros -> Ha. unfold S_TestBlocked.load. replace (length pre + 1 - a) with (S (length pre - a)) by lia.
  rewrite skipn_app. replace (a - length pre) with 0 by lia. cbn [skipn]. pose proof (skipn_length a pre) as Hs. rewrite !firstn_app, Hs, Nat.sub_diag.
  replace (S (length pre - a) - (length pre - a)) with 1 by lia. rewrite !firstn_all2 by lia. change (firstn 1 (l :: post)) with [l]. change (firstn 0 (l :: post)) with (@nil (list nat)).
  rewrite app_nil_r, concat_app, app_length. cbn [concat]. rewrite app_nil_r, firstn_all2 by lia. reflexivity.
Qed.
Lemma split_cuts m posts : forall lists pre low cnt un terms a bs, posts = pre ++ lists -> lists <> [] -> a <= length pre -> cnt = S_TestBlocked.load posts a (length pre) ->
  (forall x, a < x <= length pre -> S_TestBlocked.load posts a x < m) ->
  split_blocks m lists (length pre + 1) low cnt un terms = Ok bs -> cuts m posts a (map blk_bound bs).
Proof.
  induction lists as [|l lists IH]; intros pre low cnt un terms a bs Hp Hne Ha Hc Hx E; [congruence|]. cbn [split_blocks] in E.
  destruct (add_docs _ _ _) as [terms1| | |]; try discriminate. cbn [bind] in E.
  pose proof (load_next posts pre l lists a Hp Ha) as Hload. rewrite <- Hc in Hload.
  assert (Hlen : length posts = length pre + S (length lists)) by now rewrite Hp, app_length.
  assert (Hp' : posts = (pre ++ [l]) ++ lists) by now rewrite <- app_assoc.
  assert (Hl' : length (pre ++ [l]) = length pre + 1) by now rewrite app_length.
  destruct ((m <=? cnt + length l) || _) eqn:Eb.
  - destruct (take_sets _ _) as [[sets terms2]| | |]; try discriminate. cbn [bind] in E. destruct (_ =? 0); try discriminate.
    destruct (split_blocks m lists _ _ _ _ _) as [rest| | |] eqn:Er; try discriminate. cbn [bind] in E. injection E as <-. cbn [map blk_bound cuts].
    split; [lia|]. split; [|split].
    + apply Bool.orb_true_iff in Eb as [Eb|Eb]; [apply Nat.leb_le in Eb; right; lia|]. destruct lists; [left; cbn in Hlen; lia|discriminate].
    + intros x Hx1. apply Hx. lia.
    + destruct lists as [|l2 lists].
      * cbn [split_blocks] in Er. injection Er as <-. cbn [map cuts]. cbn in Hlen. lia.
      * apply (IH (pre ++ [l]) (length pre + 1) 0 [] terms2 (length pre + 1) rest); [exact Hp'|discriminate|lia| | |].
        -- rewrite Hl'. unfold S_TestBlocked.load. now rewrite Nat.sub_diag.
        -- intros x Hx1. lia.
        -- rewrite Hl'. exact Er.
  - apply Bool.orb_false_iff in Eb as [Eb1 Eb2]. apply Nat.leb_gt in Eb1.
    apply (IH (pre ++ [l]) low (cnt + length l) (un ++ l) terms1 a bs); [exact Hp'|now destruct lists|lia| | |].
    + rewrite Hl'. lia.
    + intros x Hx1. rewrite Hl' in Hx1. destruct (Nat.eq_dec x (length pre + 1)) as [->|]; [lia|]. apply Hx. lia.
    + rewrite Hl'. exact E.
Qed.
Lemma bounds_cuts m u posts b : posts <> [] -> bi_build_d m u posts = Ok b -> cuts m posts 0 (xd_blocks b).
Proof.
  intros Hne Eb. unfold bi_build_d in Eb. destruct (split_blocks _ _ _ _ _ _ _) as [bs| | |] eqn:Es; try discriminate. cbn [bind] in Eb.
  repeat match type of Eb with context [records_d ?a ?b] => destruct (records_d a b) as [[? ?]| | |]; try discriminate; cbn [bind] in Eb end. injection Eb as <-. cbn [xd_blocks].
  apply (split_cuts m posts posts [] 1 0 [] (repeat [] u) 0 bs); [reflexivity|exact Hne|apply Nat.le_refl|reflexivity|cbn; lia|exact Es].
Qed.

Section Whole.
  Context (c : collection) (Hwf : wf_collection c) (Hfew : few_postings c) (t : texts) (Ht : holds_collection c t) (tail : N) (Htail : (tail < 2 ^ 64)%N).
  Context (heap : forall A, heap_ops A) (Hheap : forall A, std_heap (heap A)) (sort : list ceit -> list ceit) (Hsort : sorts_by_size ce_ops sort).
  Context (bsort : forall A : Type, (A -> nat) -> list A -> list A) (Hbsort : forall A key l, Permutation (bsort A key l) l).
  Let T := length (terms c).
  Let KB := real_bcontainers tail heap sort bsort.

  Lemma inv_built_ok : exists d, inv_build_d (universe c) (postings c) = Ok d /\ vd_docs d = universe c /\ ef_size (vd_ptrs d) = T /\
    forall i l, nth_error (postings c) i = Some l -> exists it, inv_of tail d i = Ok it /\ ce_cursor tail (universe c) it l 0.
  Proof using Hwf Htail.
    pose proof (postings_ok c Hwf) as Hok. pose proof (wf_universe c Hwf) as HU. pose proof (postings_few c Hwf) as Hf.
    destruct (inv_build_ok (N.of_nat (universe c)) (map (map N.of_nat) (postings c)) tail) as (ii & Eii & Hn & Hit).
    - apply small_u. lia.
    - exact Htail.
    - intros E. apply map_eq_nil in E. now apply (postings_ne c Hwf).
    - now apply lists_good.
    - rewrite length_concat_map. pose proof pow40. lia.
    - destruct (inv_build_d (universe c) (postings c)) as [d| | |] eqn:Ed.
      2-4: exfalso; unfold inv_build, inv_build_d in *; rewrite records_view in Eii; destruct (records_d _ _) as [[e v]| | |]; cbn [bind] in *; discriminate.
      pose proof (inv_d_docs _ _ _ Ed) as Ev.
      assert (Eq : ii = {| ii_docs := N.of_nat (vd_docs d); ii_lists := records_of (vd_ptrs d) (vd_data d) |}).
      { unfold inv_build, inv_build_d in *. rewrite records_view in Eii. destruct (records_d _ _) as [[e v]| | |]; cbn [bind] in *; try discriminate. injection Ed as <-. injection Eii as <-. reflexivity. }
      assert (Es : ef_size (vd_ptrs d) = T).
      { rewrite Eq in Hn. unfold inv_terms in Hn. cbn [ii_lists records_of r_ptrs seqc_of q_size] in Hn. rewrite Hn, map_length. now apply postings_length. }
      exists d. split; [reflexivity|]. split; [exact Ev|]. split; [exact Es|]. intros i l Hl. destruct (Hit i _ (nth_error_lists _ _ _ Hl)) as (it & E & Hat). exists it.
      split; [unfold inv_of; now rewrite <- Eq|]. rewrite Forall_forall in Hok. destruct (Hok l (nth_error_In _ _ Hl)) as (H1 & H2 & H3). repeat (split; [assumption|]). assumption.
  Qed.

  Lemma binv_built_ok m : exists b, bi_build_d m (universe c) (postings c) = Ok b /\ xd_docs b = universe c /\ xd_terms_num b = T /\
    (forall x, 1 <= x <= T -> exists i, in_block (xd_blocks b) i x /\ forall j, in_block (xd_blocks b) j x -> j = i) /\
    forall fuel ids, ids <> [] -> increasing ids -> Forall (fun t => 1 <= t <= T) ids -> (universe c + 2) * (length ids + 1) < fuel ->
    exists y r, binter_new KB (binv_of tail heap sort bsort b) fuel ids = Ok y /\ yields (binter_stream KB (binv_of tail heap sort bsort b) fuel) y r /\ increasing r /\
      ((forall i, ~ Forall (in_block (xd_blocks b) i) ids) -> common_docs (postings c) ids r) /\
      (forall i, Forall (in_block (xd_blocks b) i) ids -> forall d, In d r <-> Forall (has_term (postings c) d) ids /\ ~ leads (xd_blocks b) (postings c) i d).
  Proof using Hwf Hfew Htail Hheap Hsort Hbsort.
    pose proof (real_bcontainers_ok tail heap sort Htail Hheap Hsort bsort Hbsort) as HK. fold KB in HK. pose proof (postings_length c) as HL. fold T in HL.
    assert (Hu : (N.of_nat (universe c) < 4294967296)%N) by (pose proof (wf_universe c Hwf); lia).
    destruct (blocked_intersection KB HK (universe c) (postings c) Hu (postings_ne c Hwf) (postings_ok c Hwf) Hfew m) as (ii & E & Hii).
    destruct (blocked_partition KB HK (universe c) (postings c) Hu (postings_ne c Hwf) (postings_ok c Hwf) Hfew m) as (ii' & E' & Hpart & _).
    rewrite E in E'. injection E' as <-. unfold KB in E. rewrite binv_view in E.
    destruct (bi_build_d m (universe c) (postings c)) as [b| | |] eqn:Eb; try discriminate. cbn [bind] in E. injection E as <-.
    exists b. split; [reflexivity|]. split; [|split; [|split]].
    - unfold bi_build_d in Eb. destruct (split_blocks _ _ _ _ _ _ _); try discriminate. cbn [bind] in Eb.
      repeat match type of Eb with context [records_d ?a ?b] => destruct (records_d a b) as [[? ?]| | |]; try discriminate; cbn [bind] in Eb end. injection Eb as <-. reflexivity.
    - unfold bi_build_d in Eb. destruct (split_blocks _ _ _ _ _ _ _); try discriminate. cbn [bind] in Eb.
      repeat match type of Eb with context [records_d ?a ?b] => destruct (records_d a b) as [[? ?]| | |]; try discriminate; cbn [bind] in Eb end. injection Eb as <-. exact HL.
    - intros x Hx. exists (block_id KB (binv_of tail heap sort bsort b) x). apply Hpart. rewrite HL. exact Hx.
    - intros fuel ids H1 H2 H3 H4. apply (Hii fuel ids H1 H2); [rewrite HL; exact H3|exact H4].
  Qed.

  (** The documents with all terms. *)
  Lemma common_exists q : q <> [] -> Forall (fun x => 1 <= x <= T) q -> exists r, common (map (posting_list c) q) r /\ common_docs (postings c) q r /\ Forall (fun d => d < universe c) r /\ length r <= universe c.
  Proof using Hwf Htail.
    intros Hne Hq. set (f := fun d => forallb (fun x => existsb (Nat.eqb d) (posting_list c x)) q). exists (filter f (seq 0 (universe c))).
    assert (Hinc : increasing (filter f (seq 0 (universe c)))) by apply filter_seq_increasing.
    assert (Hlt : Forall (fun d => d < universe c) (filter f (seq 0 (universe c)))) by (apply Forall_forall; intros d Hd; apply filter_In in Hd as [Hd _]; apply in_seq in Hd; lia).
    assert (Hin : forall d, In d (filter f (seq 0 (universe c))) <-> Forall (fun x => In d (posting_list c x)) q).
    { intros d. rewrite filter_In, in_seq. unfold f. rewrite forallb_forall. setoid_rewrite existsb_exists. rewrite Forall_forall. split.
      - intros [_ H] x Hx. destruct (H x Hx) as (y & Hy & E). apply Nat.eqb_eq in E. now subst.
      - intros H. split; [|intros x Hx; exists d; split; [now apply H|apply Nat.eqb_refl]]. destruct q as [|x q]; [congruence|].
        pose proof (posting_lt c x) as Hl. rewrite Forall_forall in Hl. specialize (Hl d (H x (or_introl eq_refl))). lia. }
    split; [split; [exact Hinc|intros d; rewrite Hin, Forall_map; reflexivity]|]. split; [|split; [exact Hlt|now apply increasing_length_lt]].
    split; [exact Hinc|]. intros d. rewrite Hin. rewrite Forall_forall in Hq. rewrite !Forall_forall. unfold has_term.
    split; intros H x Hx; specialize (H x Hx); pose proof (postings_nth c x (Hq x Hx)) as E; apply (nth_error_nth _ _ []) in E; [rewrite E|rewrite E in H]; exact H.
  Qed.

  (** Without the first document of the block the answer is complete exactly if this document is not in it. *)
  Lemma complete_iff bounds q r0 r : q <> [] -> (forall x, In x q -> exists i, in_block bounds i x /\ forall j, in_block bounds j x -> j = i) -> increasing r -> common_docs (postings c) q r0 ->
    ((forall i, ~ Forall (in_block bounds i) q) -> common_docs (postings c) q r) ->
    (forall i, Forall (in_block bounds i) q -> forall d, In d r <-> Forall (has_term (postings c) d) q /\ ~ leads bounds (postings c) i d) ->
    r0 = r <-> ~ misses_first bounds (postings c) q.
  Proof.
    intros Hne Hblk Hinc [Hinc0 Hin0] Hno Hone. split.
    - intros <- (i & d & H1 & H2 & H3). apply (Hone i H1 d); [now apply Hin0|exact H2].
    - intros Hm. apply increasing_ext; [exact Hinc0|exact Hinc|]. intros d. rewrite Hin0.
      destruct q as [|x q]; [congruence|]. destruct (Hblk x (or_introl eq_refl)) as (i & _ & Hi).
      destruct (Forall_dec (in_block bounds i) (in_block_dec bounds i) (x :: q)) as [Hall|Hnot].
      + rewrite (Hone i Hall d). split; [|tauto]. intros H. split; [exact H|]. intros Hl. apply Hm. exists i, d. auto.
      + assert (Hn : forall j, ~ Forall (in_block bounds j) (x :: q)); [|destruct (Hno Hn) as [_ ->]; reflexivity].
        intros j Hj. assert (j = i) by (apply Hi; now inversion Hj). subst j. now apply Hnot.
  Qed.

  Lemma check_both_ok d b fuel q : vd_docs d = universe c -> (forall i l, nth_error (postings c) i = Some l -> exists it, inv_of tail d i = Ok it /\ ce_cursor tail (universe c) it l 0) ->
    xd_docs b = universe c ->
    (forall x, 1 <= x <= T -> exists i, in_block (xd_blocks b) i x /\ forall j, in_block (xd_blocks b) j x -> j = i) ->
    (forall fuel ids, ids <> [] -> increasing ids -> Forall (fun t => 1 <= t <= T) ids -> (universe c + 2) * (length ids + 1) < fuel ->
      exists y r, binter_new KB (binv_of tail heap sort bsort b) fuel ids = Ok y /\ yields (binter_stream KB (binv_of tail heap sort bsort b) fuel) y r /\ increasing r /\
      ((forall i, ~ Forall (in_block (xd_blocks b) i) ids) -> common_docs (postings c) ids r) /\
      (forall i, Forall (in_block (xd_blocks b) i) ids -> forall d, In d r <-> Forall (has_term (postings c) d) ids /\ ~ leads (xd_blocks b) (postings c) i d)) ->
    q <> [] -> increasing q -> Forall (fun x => 1 <= x <= T) q -> (universe c + 2) * (length q + 1) < fuel ->
    exists r, check_both tail heap sort bsort fuel d b q = Ok r /\ (r = true <-> ~ misses_first (xd_blocks b) (postings c) q).
  Proof using Hwf Htail Hsort Hfew Ht Hheap Hbsort.
    intros Ev Hit Exd Hblk Hb Hne Hinc Hq Hf. destruct (common_exists q Hne Hq) as (r0 & Hcom & Hcd & Hlt & Hlen). unfold check_both.
    destruct (intersection_forward ce_ops (universe c) (ce_cursor tail (universe c)) (inv_of tail d) (postings c) sort q (map (posting_list c) q) fuel r0) as (x & Ex & Hy).
    - intros it l p0 Hc. destruct (ce_is_cursor tail (universe c) it l p0 Hc) as (A1 & A2 & A3 & A4 & A5 & A6 & A7 & A8 & A9 & A10). repeat (split; [assumption|]). split; [intros lb Hlb _; now apply A9|exact A10].
    - exact Hit.
    - exact Hsort.
    - exact Hne.
    - clear -Hq. induction Hq as [|y q Hy _ IH]; cbn [map]; constructor; [|exact IH]. split; [lia|]. now apply (postings_nth c).
    - nia.
    - exact Hcom.
    - rewrite Ev, Ex. cbn [bind]. destruct (Hb fuel q Hne Hinc Hq Hf) as (y & r & Ey & Hyr & Hincr & Hno & Hone). fold KB. rewrite Ey. cbn [bind].
      destruct (same_streams_ok (inter_stream ce_ops (universe c) fuel) (binter_stream KB (binv_of tail heap sort bsort b) fuel) r0 r x y fuel Hy Hyr) as (bb & E & Hbb).
      + intros z Hz Hin. cbn [s_has_next s_deref binter_stream] in *. cbn [bi_docs_num binv_of] in Hz. rewrite Exd in Hz. apply Nat.ltb_ge in Hz. rewrite Forall_forall in Hlt. specialize (Hlt _ Hin). lia.
      + nia.
      + exists bb. split; [exact E|]. rewrite Hbb. apply complete_iff; try assumption. intros z Hz. apply Hblk. rewrite Forall_forall in Hq. now apply Hq.
  Qed.

  Lemma test_blocked_ok fuel queries ms junk :
    (forall q, In q (queries T) -> 2 <= length q /\ increasing q /\ Forall (fun x => 1 <= x <= T) q /\ (universe c + 2) * (length q + 1) < fuel) ->
    exists r, test_blocked tail heap sort bsort fuel queries ms junk t = Ok r /\
      (r = true <-> forall m q, In m (ms (N.of_nat (universe c))) -> In q (queries T) ->
         exists b, bi_build_d m (universe c) (postings c) = Ok b /\ ~ misses_first (xd_blocks b) (postings c) q).
  Proof using Hwf Hfew Ht Htail Hheap Hsort Hbsort.
    intros Hqs. unfold test_blocked. destruct (load_full c Hwf t Ht) as (p & -> & Et & _ & Eu & _). cbn [bind].
    rewrite Et, Eu, !Nat2N.id, (read_inverted c Hwf t Ht tail Htail), to_nat_lists. destruct inv_built_ok as (d & -> & Ev & Es & Hit). cbn [bind].
    assert (Hs : inv_sizes d p = true) by (unfold inv_sizes; now rewrite Et, Eu, Ev, Es, !N.eqb_refl). rewrite Hs. fold T.
    destruct (all_pass_ok (fun m (s : unit) => do r <- check_blocked tail heap sort bsort fuel p (postings c) d (queries T) m; Ok (r, s)) (fun _ => True)
      (fun m => forall q, In q (queries T) -> exists b, bi_build_d m (universe c) (postings c) = Ok b /\ ~ misses_first (xd_blocks b) (postings c) q) (ms (N.of_nat (universe c))))
      with (s := tt) as (r & s' & E & _ & Hr); [|exact I|].
    - intros m [] _ _. unfold check_blocked. rewrite Eu, Et, Nat2N.id. destruct (binv_built_ok m) as (b & Eb & Exd & Ext & Hblk & Hb). rewrite Eb. cbn [bind]. rewrite Exd, Ext. fold T. rewrite !N.eqb_refl. cbn [andb].
      destruct (all_pass_ok (fun q (s : unit) => do r <- check_both tail heap sort bsort fuel d b q; Ok (r, s)) (fun _ => True)
        (fun q => ~ misses_first (xd_blocks b) (postings c) q) (queries T)) with (s := tt) as (r & [] & E & _ & Hr); [|exact I|].
      + intros q [] Hin _. destruct (Hqs q Hin) as (H1 & H2 & H3 & H4).
        destruct (check_both_ok d b fuel q Ev Hit Exd Hblk Hb) as (r & -> & Hr); [intros ->; cbn in H1; lia|assumption..|]. exists r, tt. cbn [bind]. auto.
      + rewrite E. cbn [bind]. exists r, tt. split; [reflexivity|]. split; [exact I|]. rewrite Hr, Forall_forall. split.
        * intros H q Hin. exists b. split; [reflexivity|]. now apply H.
        * intros H q Hin. destruct (H q Hin) as (b' & Eb' & Hm). injection Eb' as <-. exact Hm.
    - rewrite E. cbn [bind]. exists r. split; [reflexivity|]. rewrite Hr, Forall_forall. split; [intros H m q Hm Hq; now apply H|intros H m Hm q Hq; now apply H].
  Qed.
End Whole.
