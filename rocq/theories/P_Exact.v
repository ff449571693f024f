(** Sessions of requests with any query. *)
From Coq Require Import Sorted Permutation.
From Verif Require Import Base S_Order S_Vocab S_Parse M_Iter M_Intersect M_Containers S_Containers M_Auto M_Auto1 S_Collection S_Index S_Found S_Build.
From Verif Require Import M_Auto2 S_Index2 M_Blocked S_Blocked P_Collection P_ParseFc P_Auto1 P_Core2 P_Auto23 P_Auto4.

Lemma session_any {S} (ok : S -> Prop) (res_of : S -> pool) (Q : request -> Prop) (A : request -> list (nat * list N) -> Prop) (run : request -> S -> res S) :
  (forall r s, Q r -> ok s -> exists out s', run r s = Ok s' /\ pool_results (res_of s') = Ok out /\ ok s' /\ A r out) ->
  forall rs s, ok s -> Forall Q rs ->
  exists outs s', session run (fun s => pool_results (res_of s)) rs s = Ok (outs, s') /\ Forall2 A rs outs /\ ok s'.
Proof.
  intros H rs s Hs Hr. revert s Hs. induction Hr as [|r rs Hr1 Hr IH]; intros s Hs.
  - exists [], s. cbn. auto.
  - destruct (H r s Hr1 Hs) as (out & s1 & E1 & E2 & E3 & E4). destruct (IH s1 E3) as (outs & s2 & F1 & F2 & F3).
    exists (out :: outs), s2. cbn [session]. rewrite E1. cbn [bind]. rewrite E2. cbn [bind]. rewrite F1. cbn [bind].
    split; [reflexivity|]. split; [now constructor|exact F3].
Qed.

Section Exact.
  Variable K : containers.
  Hypothesis HK : containers_ok K.
  Variable c : collection.
  Hypothesis Hwf : wf_collection c.

  Lemma auto1_any : some_doc_positive c -> some_term_not_in_doc0 c -> exists x, ac1_build K (files_of c) = Ok x /\
    forall fuel rs s, query_fuel c < fuel -> state1_ok s -> Forall (any_request (reportable c) (answer_found1 c)) rs ->
    exists outs s', session (ac1_request K x fuel) (fun s => pool_results (s1_pool s)) rs s = Ok (outs, s') /\
      Forall2 (answer_found1 c) rs outs /\ state1_ok s'.
  Proof.
    intros Hpos H0. destruct (auto1_exact K HK c Hwf Hpos H0) as (x & E & H). exists x. split; [exact E|]. intros fuel rs s Hf.
    apply (session_any state1_ok s1_pool). clear rs s. intros r s Hfit Hs.
    destruct (query_split_exists_unique (rq_text r)) as (ts & last & Hsp & _).
    destruct (H fuel (rq_k r) (rq_text r) ts last s Hf Hsp Hs) as [(o1 & A1 & B1 & _) (o2 & A2 & B2 & _)].
    unfold ac1_request, any_request, answer_found1 in *. destruct (rq_conj r).
    - destruct B2 as (s' & E1 & E2 & E3); [apply Hfit; eauto|]. exists o2, s'. split; [exact E1|]. eauto 6.
    - destruct B1 as (s' & E1 & E2 & E3); [apply Hfit; eauto|]. exists o1, s'. split; [exact E1|]. eauto 6.
  Qed.

  Hypothesis Hpos : some_kept_doc_positive c.

  Lemma any2 (pre conj : nat -> list N -> state2 -> res state2) :
    forall (good : list (list N) -> list N -> nat -> list (nat * list N) -> Prop),
    (forall k q ts last, query_split q ts last ->
      answers2 c k (pre k q) (prefix_found c ts last) /\
      (forall s, state2_ok s -> exists out, topk_answer c (conj_by c (found c last) ts) (limit c k) out /\
        (reportable2 c out -> good ts last k out -> exists s', conj k q s = Ok s' /\ pool_results (s2_pool s') = Ok out /\ state2_ok s'))) ->
    forall r s, (rq_conj r = true -> forall ts last out, query_split (rq_text r) ts last -> answer_found2 c r out -> good ts last (rq_k r) out) /\
      any_request (reportable2 c) (answer_found2 c) r -> state2_ok s ->
      exists out s', (if rq_conj r then conj (rq_k r) (rq_text r) s else pre (rq_k r) (rq_text r) s) = Ok s' /\
        pool_results (s2_pool s') = Ok out /\ state2_ok s' /\ answer_found2 c r out.
  Proof.
    intros good H r s (Hcond & Hfit) Hs. destruct (query_split_exists_unique (rq_text r)) as (ts & last & Hsp & _).
    destruct (H (rq_k r) (rq_text r) ts last Hsp) as [Hp Hc].
    unfold any_request, answer_found2 in *. destruct (rq_conj r).
    - destruct (Hc s Hs) as (o & A & B).
      destruct B as (s' & E1 & E2 & E3); [apply Hfit; eauto|apply (Hcond eq_refl ts last o Hsp); eauto|]. exists o, s'. eauto 7.
    - destruct (Hp s Hs) as (o & A & B & _). destruct B as (s' & E1 & E2 & E3); [apply Hfit; eauto|]. exists o, s'. eauto 7.
  Qed.

  Lemma auto2_any : some_term_not_in_doc0 c -> exists x, ac2_build K (files_of c) = Ok x /\
    forall fuel rs s, query_fuel c < fuel -> state2_ok s -> Forall (any_request2 c) rs ->
    exists outs s', session (ac2_request K x fuel) (fun s => pool_results (s2_pool s)) rs s = Ok (outs, s') /\
      Forall2 (answer_found2 c) rs outs /\ state2_ok s'.
  Proof.
    intros H0. destruct (auto2_exact K HK c Hwf Hpos H0) as (x & E & H). exists x. split; [exact E|]. intros fuel rs s Hf.
    apply (session_any state2_ok s2_pool). unfold ac2_request. apply (any2 (ac2_prefix_topk K x fuel) (ac2_conjunctive_topk K x fuel) (fun ts last k out => ~ overruns c ts k out /\ ~ stumbles c ts last k out)).
    intros k q ts last Hq. destruct (H fuel k q ts last Hf Hq) as [A B]. split; [exact A|]. intros s0 Hs0. destruct (B s0 Hs0) as (out & B1 & B2 & _). exists out. split; [exact B1|]. intros Hr [G1 G2]. auto.
  Qed.
  Lemma auto3_any : exists x, ac3_build K (files_of c) = Ok x /\
    forall fuel rs s, query_fuel c < fuel -> state2_ok s -> Forall (any_request (reportable2 c) (answer_found2 c)) rs ->
    exists outs s', session (ac3_request K x fuel) (fun s => pool_results (s2_pool s)) rs s = Ok (outs, s') /\
      Forall2 (answer_found2 c) rs outs /\ state2_ok s'.
  Proof.
    destruct (auto3_exact K HK c Hwf Hpos) as (x & E & H). exists x. split; [exact E|]. intros fuel rs s Hf.
    apply (session_any state2_ok s2_pool). unfold ac3_request. intros r s0 Hr. refine (any2 (ac3_prefix_topk K x fuel) (ac3_conjunctive_topk K x fuel) (fun _ _ _ _ => True) _ r s0 _); [|auto].
    intros k q ts last Hq. destruct (H fuel k q ts last Hf Hq) as [A B]. split; [exact A|]. intros s1 Hs1. destruct (B s1 Hs1) as (out & B1 & B2 & _). eauto.
  Qed.

  Lemma answer_found2_unique r o1 o2 : answer_found2 c r o1 -> answer_found2 c r o2 -> o1 = o2.
  Proof using Hwf.
    intros (ts1 & l1 & S1 & A1) (ts2 & l2 & S2 & A2). destruct (query_split_exists_unique (rq_text r)) as (ts & l & _ & Hu).
    destruct (Hu _ _ S1) as [-> ->]. destruct (Hu _ _ S2) as [-> ->]. eapply answer_unique; eauto.
  Qed.
  Lemma answer_found1_unique r o1 o2 : answer_found1 c r o1 -> answer_found1 c r o2 -> o1 = o2.
  Proof using Hwf.
    intros (ts1 & l1 & S1 & A1) (ts2 & l2 & S2 & A2). destruct (query_split_exists_unique (rq_text r)) as (ts & l & _ & Hu).
    destruct (Hu _ _ S1) as [-> ->]. destruct (Hu _ _ S2) as [-> ->]. eapply answer_unique; eauto.
  Qed.
  Lemma Forall2_unique {A B} (R : A -> B -> Prop) l o1 o2 : (forall a b b', R a b -> R a b' -> b = b') -> Forall2 R l o1 -> Forall2 R l o2 -> o1 = o2.
  Proof using Type.
    intros Hu H. revert o2. induction H as [|a b l o1 Hab H IH]; intros o2 H2; inversion H2; subst; [reflexivity|]. f_equal; [eapply Hu; eauto|now apply IH].
  Qed.

  (** Types 2 and 3 agree on every query; type 1 agrees with them on every conjunctive query. *)
  Lemma agree23_any : some_term_not_in_doc0 c ->
    exists x2 x3, ac2_build K (files_of c) = Ok x2 /\ ac3_build K (files_of c) = Ok x3 /\
    forall fuel rs, query_fuel c < fuel -> Forall (any_request2 c) rs ->
    exists outs s2 s3,
      session (ac2_request K x2 fuel) (fun s => pool_results (s2_pool s)) rs state2_new = Ok (outs, s2) /\
      session (ac3_request K x3 fuel) (fun s => pool_results (s2_pool s)) rs state2_new = Ok (outs, s3).
  Proof.
    intros H0. destruct (auto2_any H0) as (x2 & E2 & S2). destruct auto3_any as (x3 & E3 & S3).
    exists x2, x3. split; [exact E2|]. split; [exact E3|]. intros fuel rs Hf Hr.
    destruct (S2 fuel rs state2_new Hf state2_new_ok Hr) as (o2 & s2 & A2 & B2 & _).
    destruct (S3 fuel rs state2_new Hf state2_new_ok (Forall_impl _ (fun r H => proj2 H) Hr)) as (o3 & s3 & A3 & B3 & _).
    rewrite (Forall2_unique _ _ _ _ answer_found2_unique B3 B2) in A3. exists o2, s2, s3. auto.
  Qed.
  Lemma agree12_any : some_doc_positive c -> some_term_not_in_doc0 c ->
    exists x1 x2, ac1_build K (files_of c) = Ok x1 /\ ac2_build K (files_of c) = Ok x2 /\
    forall fuel rs, query_fuel c < fuel -> Forall (any_request2 c) rs -> Forall (fun r => rq_conj r = true) rs ->
    exists outs s1 s2,
      session (ac1_request K x1 fuel) (fun s => pool_results (s1_pool s)) rs state1_new = Ok (outs, s1) /\
      session (ac2_request K x2 fuel) (fun s => pool_results (s2_pool s)) rs state2_new = Ok (outs, s2).
  Proof.
    intros Hp H0. destruct (auto1_any Hp H0) as (x1 & E1 & S1). destruct (auto2_any H0) as (x2 & E2 & S2).
    exists x1, x2. split; [exact E1|]. split; [exact E2|]. intros fuel rs Hf Hr Hc.
    assert (Hsame : forall r, rq_conj r = true -> forall out, answer_found2 c r out <-> answer_found1 c r out).
    { intros r Hr1 out. unfold answer_found1, answer_found2. rewrite Hr1. reflexivity. }
    assert (Hr1 : Forall (any_request (reportable c) (answer_found1 c)) rs).
    { rewrite Forall_forall in *. intros r Hin. destruct (Hr r Hin) as (_ & Hfit). intros out Ho.
      apply (proj1 (Hfit out (proj2 (Hsame r (Hc r Hin) out) Ho))). }
    destruct (S1 fuel rs state1_new Hf state1_new_ok Hr1) as (o1 & s1 & A1 & B1 & _).
    destruct (S2 fuel rs state2_new Hf state2_new_ok Hr) as (o2 & s2 & A2 & B2 & _).
    assert (B2' : Forall2 (answer_found1 c) rs o2).
    { clear -B2 Hc Hsame. induction B2 as [|r o rs os H B IH]; [constructor|]. inversion Hc; subst. constructor; [now apply Hsame|auto]. }
    rewrite (Forall2_unique _ _ _ _ answer_found1_unique B2' B1) in A2. exists o1, s1, s2. auto.
  Qed.
End Exact.

Lemma auto4_any (K : bcontainers) (HK : bcontainers_ok K) c m : wf_collection c -> few_postings c -> some_kept_doc_positive c ->
  exists x, ac4_build K m (files_of c) = Ok x /\
    forall fuel rs s, query_fuel c < fuel -> state2_ok s -> Forall (any_request (reportable2 c) (answer_found4 c (bi_bounds K (a4_inverted x)))) rs ->
    exists outs s', session (ac4_request K x fuel) (fun s => pool_results (s2_pool s)) rs s = Ok (outs, s') /\
      Forall2 (answer_found4 c (bi_bounds K (a4_inverted x))) rs outs /\ state2_ok s'.
Proof.
  intros Hwf Hfew Hpos. destruct (auto4_exact K HK c Hwf Hfew m Hpos) as (x & E & _ & H). exists x. split; [exact E|]. intros fuel rs s Hf.
  apply (session_any state2_ok s2_pool). clear rs s.
  intros r s Hfit Hst. unfold any_request in Hfit. destruct (query_split_exists_unique (rq_text r)) as (ts & last & Hs & _).
  destruct (H fuel (rq_k r) (rq_text r) ts last s Hf Hs Hst) as [Hpre Hconj]. unfold ac4_request, answer_found4 in *.
  destruct (rq_conj r).
  - destruct Hconj as (out & A & C & _). destruct C as (s' & C1 & C2 & C3); [apply (Hfit out); eauto|].
    exists out, s'. split; [exact C1|]. split; [exact C2|]. split; [exact C3|]. exists ts, last. auto.
  - destruct Hpre as (out & A & C & _). destruct C as (s' & C1 & C2 & C3); [apply (Hfit out); eauto|].
    exists out, s'. split; [exact C1|]. split; [exact C2|]. split; [exact C3|]. exists ts, last. auto.
Qed.

(** ** Consequences of [blocked_answer] *)
Lemma sorted_le_perm : forall l1 l2 : list nat, StronglySorted le l1 -> StronglySorted le l2 -> Permutation l1 l2 -> l1 = l2.
Proof.
  induction l1 as [|a l1 IH]; intros l2 H1 H2 Hp; [now apply Permutation_nil in Hp|].
  destruct l2 as [|b l2]; [apply Permutation_sym, Permutation_nil in Hp; discriminate|].
  apply StronglySorted_inv in H1 as [H1 F1]. apply StronglySorted_inv in H2 as [H2 F2]. rewrite Forall_forall in F1, F2.
  assert (a = b) as ->.
  { assert (Ha : In a (b :: l2)) by (apply (Permutation_in _ Hp); now left).
    assert (Hb : In b (a :: l1)) by (apply (Permutation_in _ (Permutation_sym Hp)); now left).
    destruct Ha as [Ha|Ha]; [congruence|]. destruct Hb as [Hb|Hb]; [congruence|]. specialize (F1 _ Hb). specialize (F2 _ Ha). lia. }
  f_equal. apply IH; [exact H1|exact H2|]. exact (Permutation_cons_inv Hp).
Qed.
Lemma sorted_app_le (l1 l2 : list nat) : StronglySorted le (l1 ++ l2) -> forall x y, In x l1 -> In y l2 -> x <= y.
Proof.
  induction l1 as [|a l1 IH]; intros H x y Hx Hy; [destruct Hx|]. cbn in H. apply StronglySorted_inv in H as [H F]. destruct Hx as [<-|Hx]; [|now apply (IH H)].
  rewrite Forall_forall in F. apply F, in_or_app. now right.
Qed.

Lemma blocked_reported c bounds ts R k out d i : blocked_answer c bounds ts R k out -> 1 <= k ->
  searched c bounds R i -> shown c bounds R i d ->
  (some_known c ts -> candidate c bounds ts d /\ forall j, searched c bounds R j -> held c bounds j d -> shown c bounds R j d) ->
  In d (map fst out) \/ length out = k /\ forall r, In r out -> fst r <= d.
Proof.
  intros [(full & Hf & Hpos & _) _] Hk Hi Hs Hc. specialize (Hpos Hk).
  assert (Hin : In d full).
  { pose proof Hf as [A B]. destruct (some_known_dec c ts) as [Hkn|Hkn].
    - destruct (Hc Hkn) as [C1 C2]. destruct (B Hkn) as (_ & _ & B3). now apply (B3 d i).
    - destruct (A Hkn) as [_ A2]. destruct (A2 d) as (js & _ & J2 & J3). apply (count_occ_In Nat.eq_dec). rewrite J3.
      destruct js as [|j js]; [|cbn; lia]. destruct (proj2 (J2 i) (conj Hi Hs)). }
  pose proof (full_sorted c bounds ts R full Hf) as Hso. rewrite <- (firstn_skipn k full) in Hin, Hso. apply in_app_or in Hin. destruct Hin as [Hin|Hin].
  - left. now rewrite Hpos.
  - right. split.
    + rewrite <- (map_length fst), Hpos, firstn_length. apply Nat.min_l. destruct (Nat.le_gt_cases (length full) k) as [Hle|Hle]; [|lia].
      rewrite skipn_all2 in Hin by exact Hle. destruct Hin.
    + intros r Hr. apply (sorted_app_le _ _ Hso); [|exact Hin]. rewrite <- Hpos. now apply in_map.
Qed.

Lemma full_unique c bounds ts R f1 f2 : ~ some_known c ts -> all_blocked c bounds ts R f1 -> all_blocked c bounds ts R f2 -> f1 = f2.
Proof.
  intros Hn [A _] [B _]. destruct (A Hn) as [A1 A2]. destruct (B Hn) as [B1 B2]. apply sorted_le_perm; [exact A1|exact B1|].
  apply (Permutation_count_occ Nat.eq_dec). intros d. destruct (A2 d) as (js & J1 & J2 & ->). destruct (B2 d) as (js' & J3 & J4 & ->).
  apply Permutation_length, NoDup_Permutation; [exact J1|exact J3|]. intros i. rewrite J2, J4. tauto.
Qed.
Lemma blocked_unique c bounds ts R k out1 out2 : wf_collection c -> ~ some_known c ts -> 1 <= k ->
  blocked_answer c bounds ts R k out1 -> blocked_answer c bounds ts R k out2 -> out1 = out2.
Proof.
  intros Hwf Hn Hk [(f1 & F1 & P1 & _) T1] [(f2 & F2 & P2 & _) T2]. specialize (P1 Hk). specialize (P2 Hk).
  rewrite (full_unique c bounds ts R f1 f2 Hn F1 F2), <- P2 in P1. clear P2 F1 F2.
  revert out2 T2 P1. induction out1 as [|[d s] o1 IH]; intros [|[d' s'] o2] T2 E; try discriminate; [reflexivity|]. cbn in E. injection E as <- E.
  destruct (T1 d s (or_introl eq_refl)) as (i1 & D1 & ->). destruct (T2 d s' (or_introl eq_refl)) as (i2 & D2 & ->).
  rewrite <- (is_doc_fwd c Hwf d i1 D1), <- (is_doc_fwd c Hwf d i2 D2). f_equal. apply IH; [|intros; apply T2; now right|exact E]. intros; apply T1. now right.
Qed.
