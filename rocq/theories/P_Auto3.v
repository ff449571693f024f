(** ef_autocomplete_type3 answers queries exactly. *)
From Coq Require Import Sorted Permutation.
From Verif Require Import Base S_Order P_Order S_Vocab S_Completions M_Fc P_Fc M_IntFc P_IntFc S_Parse M_Parse P_Parse P_ParseFc.
From Verif Require Import M_Heap S_Heap P_Heap M_Iter S_Iter M_TopK S_TopK P_TopK P_TopKDistinct P_Limit M_Intersect S_Intersect P_Intersect.
From Verif Require Import M_Find S_Search M_Trie S_Trie M_Containers S_Containers P_Containers.
From Verif Require Import M_Auto S_Collection S_Found P_Collection S_Index P_Pool M_Auto1 P_Query M_Auto2 S_Index2 S_Build P_Core2 P_Auto2.
Local Open Scope nat_scope.

(** first_geq on increasing lists. *)
Lemma first_geq_skip : forall l lb, increasing l -> forall y, In y (skipn (first_geq l lb) l) <-> In y l /\ lb <= y.
Proof.
  induction l as [|x l IH]; intros lb Hi y; [cbn; tauto|]. inversion Hi as [|? ? Hi' Hx]; subst.
  cbn [first_geq]. destruct (Nat.leb_spec lb x) as [H|H].
  - cbn [skipn]. split; [|tauto]. intros Hy. split; [exact Hy|]. destruct Hy as [->|Hy]; [exact H|].
    rewrite Forall_forall in Hx. specialize (Hx y Hy). lia.
  - cbn [skipn]. rewrite IH by exact Hi'. split; [intros [A B]; split; [now right|exact B]|].
    intros [[->|A] B]; [lia|auto].
Qed.
Lemma first_geq_gt l : forall p lb u, increasing l -> p < length l -> nth p l u < lb -> p < first_geq l lb.
Proof.
  induction l as [|x l IH]; intros p lb u Hi Hp Hn; [cbn in Hp; lia|]. inversion Hi as [|? ? Hi' Hx]; subst.
  cbn [first_geq]. destruct (Nat.leb_spec lb x) as [H|H].
  - exfalso. destruct p as [|p]; cbn in Hn; [lia|]. cbn in Hp. rewrite Forall_forall in Hx.
    assert (Hin : In (nth p l u) l) by (apply nth_In; lia). specialize (Hx _ Hin). lia.
  - destruct p as [|p]; [lia|]. cbn in Hn, Hp. specialize (IH p lb u Hi' ltac:(lia) Hn). lia.
Qed.

Section Auto3.
  Variable K : containers.
  Hypothesis HK : containers_ok K.
  Variable c : collection.
  Hypothesis Hwf : wf_collection c.

  Record index3_ok (x : index3 K) (at_ : k_It K -> list nat -> nat -> Prop) : Prop := {
    i3_core : core_ok c (a3_core K x);
    i3_cursor : cursor (k_ops K (a3_universe K x)) (universe c) at_;
    i3_opens : opens at_ (a3_inverted K x) (postings c);
    i3_universe : a3_universe K x = universe c
  }.

  Lemma ac3_build_ok : some_kept_doc_positive c -> exists x at_, ac3_build K (files_of c) = Ok x /\ index3_ok x at_.
  Proof.
    intros Hpos. unfold ac3_build. destruct (core_build_ok K HK c Hwf Hpos) as (co & Eco & Hco).
    rewrite Eco. cbn [bind]. unfold files_of. cbn [f_universe f_inverted]. fold (postings c).
    destruct (lists_build_ok K HK c Hwf) as (iterator & at_ & Ei & Hcur & Hop). rewrite Ei. cbn [bind].
    eexists. exists at_. split; [reflexivity|]. constructor; cbn; auto.
  Qed.

  Variable x : index3 K.
  Variable at_ : k_It K -> list nat -> nat -> Prop.
  Hypothesis Hx : index3_ok x at_.
  Variable fuel : nat.
  Hypothesis Hfuel : query_fuel c < fuel.
  Let iops := k_ops K (a3_universe K x).
  Let std := k_heap K (k_It K).
  Let den := den_it at_.

  Definition queue_ok (q : list (k_It K)) (Rs : list (list nat)) : Prop :=
    is_heap (i_deref iops) q /\ Forall2 den q Rs.

  (** One step of the inner loop. *)
  Lemma inner_step_ok doc q Rs : doc < universe c -> queue_ok q Rs ->
    match conj3_inner_step K x doc q with
    | Ok (inl q') => exists Rs', queue_ok q' Rs' /\ length (concat Rs') < length (concat Rs) /\
                       forall y, doc <= y -> (In y (concat Rs') <-> In y (concat Rs))
    | Ok (inr (q', h)) => exists Rs', queue_ok q' Rs' /\ length (concat Rs') <= length (concat Rs) /\
                       (forall y, doc <= y -> (In y (concat Rs') <-> In y (concat Rs))) /\ (h = true <-> In doc (concat Rs))
    | _ => False
    end.
  Proof.
    intros Hdoc [Hh HF]. unfold conj3_inner_step. fold iops std. pose proof (i3_cursor x at_ Hx) as Hcur. fold iops in Hcur.
    destruct q as [|z q].
    { inversion HF; subst. exists []. split; [split; assumption|]. split; [lia|]. split; [tauto|]. cbn. split; [discriminate|tauto]. }
    inversion HF as [|? R1 ? Rs1 Hz HF1]; subst.
    destruct (queue_min (i_deref iops) den (den_it_min iops (universe c) at_ Hcur) z q R1 Rs1 Hh HF) as [Hv Hmin].
    destruct (Nat.ltb_spec doc (i_deref iops z)) as [Hlt|Hge].
    { exists (R1 :: Rs1). split; [split; assumption|]. split; [lia|]. split; [tauto|]. split; [discriminate|].
      intros Hin. specialize (Hmin _ Hin). lia. }
    destruct (Nat.ltb_spec (i_deref iops z) doc) as [Hlt2|Hge2].
    2:{ cbn [bind]. assert (i_deref iops z = doc) by lia. rewrite H, Nat.eqb_refl.
        exists (R1 :: Rs1). split; [split; assumption|]. split; [lia|]. split; [tauto|]. split; [|reflexivity].
        intros _. rewrite <- H. exact Hv. }
    destruct Hz as (l & p & Ha & Hp & ->).
    destruct (Hcur z l p Ha) as (Hinc & Hu & _ & _ & _ & _ & Hder & _ & Hng & _).
    destruct (Hng doc ltac:(lia)) as (z' & Ez & Ha'). rewrite Ez. cbn [bind].
    destruct (Hcur z' l (first_geq l doc) Ha') as (_ & _ & _ & _ & _ & Hhn & Hder' & _).
    assert (Hfg : p < first_geq l doc) by (apply (first_geq_gt l p doc (universe c)); auto; now rewrite <- Hder).
    assert (Hin1 : forall y, doc <= y -> (In y (skipn (first_geq l doc) l) <-> In y (skipn p l))).
    { intros y Hy. rewrite (first_geq_skip l doc Hinc). split.
      - intros [A _]. rewrite <- (firstn_skipn p l) in A. apply in_app_or in A. destruct A as [A|A]; [exfalso|exact A].
        apply In_nth_error in A. destruct A as [j Hj].
        assert (Hjp : j < p). { assert (j < length (firstn p l)) by (apply nth_error_Some; congruence). rewrite firstn_length in H. lia. }
        rewrite nth_error_firstn in Hj by exact Hjp.
        pose proof (increasing_hd_min l j (universe c) (nth p l (universe c)) Hinc ltac:(lia)) as Hle.
        apply (nth_error_nth _ _ (universe c)) in Hj.
        assert (In (nth p l (universe c)) (skipn j l)).
        { apply (nth_error_In _ (p - j)). rewrite nth_error_skipn. replace (j + (p - j)) with p by lia. now apply nth_error_nth'. }
        specialize (Hle H). lia.
      - intros A. split; [|exact Hy]. rewrite <- (firstn_skipn p l). apply in_or_app. now right. }
    assert (Hshort : length (skipn (first_geq l doc) l) < length (skipn p l)) by (rewrite !skipn_length; lia).
    assert (Hb : heap_below_root (i_deref iops) (z' :: q)) by exact (heap_below_upd0 _ (z :: q) z' (heap_below _ _ Hh)).
    cbn [upd].
    (* the repaired queue *)
    assert (Hq : exists q' Rs', (if negb (i_has_next iops z') then heap_pop (i_deref iops) std (z' :: q) else heapify (i_deref iops) (z' :: q)) = Ok q' /\
      queue_ok q' Rs' /\ (forall y, In y (concat Rs') <-> In y (skipn (first_geq l doc) l) \/ In y (concat Rs1)) /\
      length (concat Rs') = length (skipn (first_geq l doc) l) + length (concat Rs1)).
    { rewrite Hhn. destruct (Nat.ltb_spec (first_geq l doc) (length l)) as [Hl|Hl]; cbn [negb].
      - destruct (heapify_ok (i_deref iops) _ Hb) as (q' & Eq & H1 & P1).
        destruct (Forall2_perm den (z' :: q) q' (skipn (first_geq l doc) l :: Rs1) P1) as (Rs' & P2 & HF2).
        { constructor; auto. exists l, (first_geq l doc). auto. }
        exists q', Rs'. split; [exact Eq|]. split; [split; assumption|]. split.
        + intros y. rewrite <- (perm_concat_in _ _ y P2). cbn. apply in_app_iff.
        + rewrite <- (perm_concat_length _ _ P2). cbn. apply app_length.
      - destruct (heap_pop_ok (i_deref iops) std (ok_heap K HK _) z' q Hb) as (q1 & E1 & H1 & P1). exists q1.
        destruct (Forall2_perm den q q1 Rs1 P1 HF1) as (Rs' & P3 & HF3). exists Rs'. split; [exact E1|].
        split; [split; assumption|]. rewrite skipn_all2 by lia. split.
        + intros y. rewrite <- (perm_concat_in _ _ y P3). cbn. tauto.
        + now rewrite <- (perm_concat_length _ _ P3). }
    destruct Hq as (q' & Rs' & Eq & Hq' & Hin' & Hlen'). rewrite Eq. cbn [bind].
    assert (Hall : forall y, doc <= y -> (In y (concat Rs') <-> In y (concat (skipn p l :: Rs1)))).
    { intros y Hy. rewrite Hin', (Hin1 y Hy). cbn [concat]. now rewrite in_app_iff. }
    assert (Hlen : length (concat Rs') < length (concat (skipn p l :: Rs1))) by (cbn [concat]; rewrite app_length; lia).
    destruct (Nat.eqb_spec (i_deref iops z') doc) as [Ed|Ed].
    - exists Rs'. split; [exact Hq'|]. split; [lia|]. split; [exact Hall|]. split; [|reflexivity]. intros _.
      apply Hall; [lia|]. apply Hin'. left.
      destruct (Nat.ltb_spec (first_geq l doc) (length l)) as [Hl|Hl].
      + rewrite (skipn_head l _ (universe c) Hl). left. congruence.
      + exfalso. rewrite Hder', nth_overflow in Ed by lia. lia.
    - exists Rs'. auto.
  Qed.

  Lemma inner_ok doc q Rs : doc < universe c -> queue_ok q Rs -> length (concat Rs) < fuel ->
    exists q' h Rs', loop fuel (conj3_inner_step K x doc) q = Ok (q', h) /\ queue_ok q' Rs' /\
      length (concat Rs') <= length (concat Rs) /\
      (forall y, doc <= y -> (In y (concat Rs') <-> In y (concat Rs))) /\ (h = true <-> In doc (concat Rs)).
  Proof.
    intros Hdoc HQ Hf.
    destruct (loop_ok_n (conj3_inner_step K x doc)
      (fun n q => exists Rs', queue_ok q Rs' /\ n = length (concat Rs') /\ length (concat Rs') <= length (concat Rs) /\
         forall y, doc <= y -> (In y (concat Rs') <-> In y (concat Rs)))
      (fun r => exists Rs', queue_ok (fst r) Rs' /\ length (concat Rs') <= length (concat Rs) /\
         (forall y, doc <= y -> (In y (concat Rs') <-> In y (concat Rs))) /\ (snd r = true <-> In doc (concat Rs))))
      with (fuel := fuel) (n := length (concat Rs)) (s := q) as ([q' h] & E & Rs' & A & B & C & D).
    - intros n q1 (Rs1 & HQ1 & -> & Hle & Hin). pose proof (inner_step_ok doc q1 Rs1 Hdoc HQ1) as H.
      destruct (conj3_inner_step K x doc q1) as [[q2|[q2 h]]| | |]; try contradiction.
      + destruct H as (Rs2 & A & B & C). exists (length (concat Rs2)). split; [exact B|]. exists Rs2. split; [exact A|].
        split; [reflexivity|]. split; [lia|]. intros y Hy. rewrite (C y Hy). now apply Hin.
      + destruct H as (Rs2 & A & B & C & D). exists Rs2. cbn [fst snd]. split; [exact A|]. split; [lia|]. split.
        * intros y Hy. rewrite (C y Hy). now apply Hin.
        * rewrite D. apply Hin. lia.
    - exists Rs. split; [exact HQ|]. split; [reflexivity|]. split; [lia|tauto].
    - exact Hf.
    - exists q', h, Rs'. cbn [fst snd] in *. auto.
  Qed.

  (** The outer loop. *)
  Lemma conj3_ok {St} (ops : stream_ops St) k (h : nat -> bool) : forall r f it q Rs scores results,
    yields ops it r -> increasing r -> Forall (fun d => d < universe c) r -> queue_ok q Rs -> length (concat Rs) < fuel ->
    (forall d, In d r -> (In d (concat Rs) <-> h d = true)) ->
    results < k -> k <= length scores -> length r < f ->
    exists num scores', loop f (conj3_step K x fuel k ops) (it, q, scores, results) = Ok (num, scores') /\
      length scores' = length scores /\
      firstn num scores' = firstn results scores ++ firstn (k - results) (filter h r) /\
      num = results + length (firstn (k - results) (filter h r)).
  Proof.
    induction r as [|d r IH]; intros f it q Rs scores results Hy Hinc Hlt HQ Hlen Hh Hres Hkl Hf; (destruct f as [|f]; [cbn in Hf; lia|]); cbn [yields] in Hy.
    - cbn [loop conj3_step]. rewrite Hy. cbn [negb orb]. exists results, scores. cbn [filter]. rewrite firstn_nil, app_nil_r. cbn. auto.
    - destruct Hy as (Hn & Hd & it' & Enext & Hy). inversion Hlt as [|? ? Hd1 Hd2]; subst. inversion Hinc as [|? ? Hinc' Hgt]; subst.
      cbn [length] in Hf. cbn [loop conj3_step]. rewrite Hn. cbn [negb orb].
      set (d := s_deref ops it) in *.
      destruct (Nat.eqb_spec (length q) 0) as [Hq0|Hq0].
      { assert (q = []) by (destruct q; [reflexivity|discriminate]). subst q. destruct HQ as [_ HF]. inversion HF; subst.
        assert (Hnil : filter h (d :: r) = []).
        { destruct (filter h (d :: r)) as [|y l] eqn:E; [reflexivity|]. exfalso.
          assert (Hin : In y (filter h (d :: r))) by (rewrite E; now left). apply filter_In in Hin. destruct Hin as [A B].
          apply (Hh y A) in B. destruct B. }
        rewrite Hnil, firstn_nil, app_nil_r. exists results, scores. cbn. auto. }
      destruct (inner_ok d q Rs Hd1 HQ Hlen) as (q' & hb & Rs' & Ei & HQ' & Hle & Hin & Hhb).
      rewrite Ei. cbn [bind].
      assert (Ehb : hb = h d).
      { pose proof (Hh d (or_introl eq_refl)) as H. rewrite <- Hhb in H. destruct hb, (h d); intuition congruence. }
      assert (Hh' : forall y, In y r -> (In y (concat Rs') <-> h y = true)).
      { intros y Hy'. rewrite Forall_forall in Hgt. specialize (Hgt y Hy'). rewrite Hin by lia. apply Hh. now right. }
      subst hb. cbn [filter]. destruct (h d).
      + rewrite set_ok by lia. cbn [bind]. destruct (Nat.eqb_spec (results + 1) k) as [Ek|Ek].
        * exists (results + 1), (upd scores results d). replace (k - results) with 1 by lia. cbn [firstn].
          rewrite upd_length, upd_firstn by lia. cbn. auto.
        * rewrite Enext. cbn [bind].
          destruct (IH f it' q' Rs' (upd scores results d) (results + 1) Hy Hinc' Hd2 HQ' ltac:(lia) Hh' ltac:(lia) ltac:(rewrite upd_length; lia) ltac:(lia))
            as (num & scores' & E & L & F & Hnum).
          exists num, scores'. split; [exact E|]. rewrite upd_length in L. split; [exact L|].
          rewrite upd_firstn in F by lia.
          replace (k - results) with (S (k - (results + 1))) by lia. cbn [firstn]. split.
          -- rewrite F, <- app_assoc. reflexivity.
          -- cbn [length]. lia.
      + rewrite Enext. cbn [bind]. apply (IH f it' q' Rs'); auto; lia.
  Qed.

  Definition conj3_pre {St} (ops : stream_ops St) (s : St * list (k_It K)) (_ : list nat) : res (option (option nat * res (St * list (k_It K)))) :=
    let '(it, q) := s in
    if negb (s_has_next ops it) || (length q =? 0) then Ok None
    else
      do (q, hit) <- loop fuel (conj3_inner_step K x (s_deref ops it)) q;
      Ok (Some (if hit : bool then Some (s_deref ops it) else None, do it <- s_next ops it; Ok (it, q))).
  Lemma conj3_wstep {St} (ops : stream_ops St) k s : conj3_step K x fuel k ops s = wstep (conj3_pre ops) k s.
  Proof.
    destruct s as [[[it q] sc] i]. cbn [conj3_step wstep conj3_pre]. destruct (negb (s_has_next ops it) || (length q =? 0)); [reflexivity|].
    destruct (loop fuel (conj3_inner_step K x (s_deref ops it)) q) as [[q' [|]]| | |]; cbn [bind]; try reflexivity.
    - destruct (set sc i (s_deref ops it)) as [sc'| | |]; cbn [bind]; try reflexivity.
      destruct (i + 1 =? k); [reflexivity|]. destruct (s_next ops it) as [it'| | |]; reflexivity.
    - destruct (s_next ops it) as [it'| | |]; reflexivity.
  Qed.
  Lemma conj3_any {St} (ops : stream_ops St) k (h : nat -> bool) r it q Rs scores :
    yields ops it r -> increasing r -> Forall (fun d => d < universe c) r -> queue_ok q Rs -> length (concat Rs) < fuel ->
    (forall d, In d r -> (In d (concat Rs) <-> h d = true)) -> length r < fuel ->
    exists ds, ds = firstn (if k =? 0 then S (length (filter h r)) else k) (filter h r) /\
      outcome (length scores) ds (loop fuel (conj3_step K x fuel k ops) (it, q, scores, 0)).
  Proof.
    intros H1 H2 H3 H4 H5 H6 H7. unfold outcome. rewrite (loop_ext _ _ (conj3_wstep ops k)).
    apply (wloop_any _ (fun k ds => ds = firstn k (filter h r))).
    - intros k0 sc A B. rewrite <- (loop_ext _ _ (conj3_wstep ops k0)).
      destruct (conj3_ok ops k0 h r fuel it q Rs sc 0 H1 H2 H3 H4 H5 H6 ltac:(lia) B H7) as (num & sc' & E & L & F & Hnum).
      rewrite Nat.sub_0_r in F, Hnum. cbn [Nat.add firstn app] in F, Hnum. exists num, sc'. split; [exact E|]. split; [|exact F].
      rewrite Hnum, firstn_length. lia.
    - intros k0 ds ->. rewrite firstn_length. lia.
  Qed.

  Lemma sel_total a b : length (concat (firstn (b + 1 - a) (skipn (a - 1) (postings c)))) <= length (concat (postings c)).
  Proof.
    rewrite <- (firstn_skipn (a - 1) (postings c)) at 2. rewrite concat_app, app_length.
    rewrite <- (firstn_skipn (b + 1 - a) (skipn (a - 1) (postings c))) at 2. rewrite concat_app, app_length. lia.
  Qed.

  Lemma ac3_conjunctive_prefix_ok k prefix a b scores : prefix <> [] ->
    Forall (fun i => 1 <= i <= length (terms c)) prefix -> a <= b < length (terms c) ->
    let all := filter (hit c (a + 1) (b + 1)) (all_of c prefix) in
    exists ds, ds = firstn (if k =? 0 then S (length all) else k) all /\
      outcome (length scores) ds (ac3_conjunctive K x fuel k prefix (a + 1) (b + 1) scores).
  Proof.
    intros Hne Hran Hab. pose proof (i3_universe x at_ Hx) as Hu. pose proof (i3_cursor x at_ Hx) as Hcur. pose proof (i3_opens x at_ Hx) as Hop.
    unfold ac3_conjunctive.
    assert (E0 : (length prefix =? 0) = false) by (destruct prefix; [congruence|reflexivity]). rewrite E0.
    assert (Hfin : forall St (ops : stream_ops St) it, yields ops it (all_of c prefix) ->
      let all := filter (hit c (a + 1) (b + 1)) (all_of c prefix) in
      exists ds, ds = firstn (if k =? 0 then S (length all) else k) all /\
        outcome (length scores) ds (conj3 K x fuel k ops (a + 1) (b + 1) it scores)).
    { intros St ops it Hy. unfold conj3. fold iops std.
      destruct (open_all_ok iops (universe c) at_ Hcur (a3_inverted K x) (postings c) Hop 0 0 (le_n 0) (b + 1 + 1 - (a + 1)) (a + 1)) as (its & E & HF).
      { lia. } { rewrite postings_length. lia. }
      rewrite E. cbn [bind]. set (sel := firstn (b + 1 + 1 - (a + 1)) (skipn (a + 1 - 1) (postings c))) in *.
      destruct (make_heap_ok (i_deref iops) std (ok_heap K HK _) its) as [H1 P1].
      destruct (Forall2_perm den its _ sel P1 HF) as (Rs & P2 & HF2).
      apply (conj3_any ops k (hit c (a + 1) (b + 1)) (all_of c prefix) it (make_heap std (i_deref iops) its) Rs scores Hy).
      { apply filter_increasing, seq_increasing. } { apply all_of_lt. } { split; assumption. }
      { rewrite <- (perm_concat_length _ _ P2). unfold sel. pose proof (sel_total (a + 1) (b + 1)). pose proof (postings_total c).
        unfold query_fuel in Hfuel. nia. }
      { intros d Hd. rewrite <- (perm_concat_in _ _ d P2). unfold sel.
        replace (b + 1 + 1 - (a + 1)) with (b + 1 - a) by lia. replace (a + 1 - 1) with a by lia.
        rewrite (in_terms_range c Hwf a b d) by lia. rewrite hit_true.
        apply (in_all_of c Hwf prefix d Hne) in Hd. destruct Hd as (w & Hw & _). split.
        - intros (ids & t & Hdoc & Ht & Htr). exists t. split; [|exact Htr]. now rewrite (is_doc_fwd c Hwf d ids Hdoc).
        - intros (t & Ht & Htr). exists (forward_list c d), t. split; [eapply fwd_is_doc; eauto|]. auto. }
      { pose proof (all_of_length c prefix). unfold query_fuel in Hfuel. nia. } }
    pose proof (conj_stream_ok K HK c Hwf (k_ops K (a3_universe K x)) at_ (a3_inverted K x) fuel prefix Hcur Hop (ok_sort K HK _) Hfuel Hne Hran) as Hst.
    destruct (deduplicate prefix) as [|t [|t2 ids]]; [destruct Hst| |].
    - destruct Hst as (t' & it & -> & Eit & Hy). rewrite Eit. cbn [bind]. now apply Hfin.
    - destruct Hst as (it & Eit & Hy). rewrite <- Hu in Eit, Hy. rewrite Eit. cbn [bind]. now apply Hfin.
  Qed.

  Lemma ac3_conj_ok k q ts last : query_split q ts last ->
    answers2 c k (ac3_conjunctive_topk K x fuel k q) (conj_by c (found c last) ts).
  Proof.
    intros Hs s Hst. unfold ac3_conjunctive_topk.
    destruct (start_ok c Hwf (a3_core K x) (i3_core x at_ Hx) false q ts last s Hs Hst) as (o & s1 & E1 & Hst1 & Hpool & Ho).
    rewrite E1. cbn [bind]. destruct o as [[[prefix a] b]|].
    2:{ exists []. split.
        - apply answer_nil. intros ids Hids Hm. destruct (conj_match_suffix c Hwf ts (found c last) ids Hids Hm) as (i & Hi & B).
          destruct Ho as [[Hn _]|Hn]; [discriminate|]. exact (Hn i Hi B).
        - split; [|intros H; exfalso; apply H; apply reportable2_nil].
          intros _. exists s1. split; [reflexivity|]. split; [now apply (empty_results s1 s)|exact Hst1]. }
    destruct Ho as (_ & Hpos & Hr). pose proof Hr as [Hab _]. pose proof Hst1 as (Hp & Hb & Hl & Hrr & Hc & Hcl & Hsz).
    pose proof Hp as [Hp1 Hp2].
    assert (Hds : exists ds all, outcome MAX_K ds (ac3_conjunctive K x fuel k prefix (a + 1) (b + 1) (p_scores (s2_pool s1))) /\
      k_smallest_distinct (if k =? 0 then S (length all) else k) all ds /\
      forall d, In d all <-> exists ids, is_doc c d ids /\ conj_by c (found c last) ts (words_of c ids)).
    { destruct (Nat.eq_dec (length prefix) 0) as [Hz|Hnz].
      - assert (Ep : prefix = []) by (destruct prefix; [reflexivity|discriminate]).
        unfold ac3_conjunctive. rewrite Ep. cbn [length Nat.eqb].
        destruct (heap_topk_any (k_ops K (a3_universe K x)) (universe c) at_ (a3_inverted K x) (postings c) (k_heap K _) k
                    (a + 1) (b + 1) fuel (p_scores (s2_pool s1))) as (ds & Hks & Hout).
        { apply (i3_cursor x at_ Hx). } { apply (i3_opens x at_ Hx). } { apply (ok_heap K HK). }
        { lia. } { lia. } { rewrite postings_length. lia. }
        { pose proof (postings_total c). unfold query_fuel in Hfuel. nia. }
        exists ds, (concat (firstn (b + 1 - a) (skipn a (postings c)))). rewrite Hp1 in Hout. split; [exact Hout|].
        replace (b + 1 + 1 - (a + 1)) with (b + 1 - a) in Hks by lia. replace (a + 1 - 1) with a in Hks by lia.
        split; [exact Hks|]. intros d. apply (conj_docs_empty c Hwf ts (found c last) prefix a b Hpos Hr d Ep).
      - assert (Hne : prefix <> []) by (intros ->; apply Hnz; reflexivity).
        destruct (ac3_conjunctive_prefix_ok k prefix a b (p_scores (s2_pool s1)) Hne (positions_range c ts prefix Hpos) ltac:(lia))
          as (ds & -> & Hout).
        eexists. exists (filter (hit c (a + 1) (b + 1)) (all_of c prefix)). rewrite Hp1 in Hout. split; [exact Hout|]. split.
        + apply firstn_k_smallest. apply filter_increasing, filter_increasing, seq_increasing.
        + intros d. now apply (conj_docs_prefix c Hwf ts (found c last) prefix a b Hpos Hr d). }
    destruct Hds as (ds & all & Hout & Hks & Hall).
    exists (answer_of c ds). split; [eapply (answer_of_any c Hwf); eauto|].
    destruct Hout as [(Hlen & scores & E & L & F)|(Hlen & E)]; rewrite E; cbn [bind].
    2:{ split; [|reflexivity]. intros [[Hr1 _] _]. unfold answer_of in Hr1. rewrite map_length in Hr1. lia. }
    apply (finish_ok c Hwf (a3_core K x) (i3_core x at_ Hx) ds scores s1 Hst1).
    { rewrite Hpool. reflexivity. } { exact F. } { exact L. } { eapply (docs_has c Hwf); eauto. }
  Qed.
End Auto3.
