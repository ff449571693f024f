(** Types 2 and 3: final statements and sessions of queries. *)
From Verif Require Import Base S_Order S_Vocab S_Parse P_Parse P_ParseFc M_Containers S_Containers M_Auto M_Auto1 S_Collection S_Found S_Index P_Collection P_Auto1.
From Verif Require Import M_Auto2 S_Index2 S_Build P_Kept P_Core2 P_Auto2 P_Auto3.
Local Open Scope nat_scope.

Lemma state2_new_ok : state2_ok state2_new.
Proof. repeat split. cbn. repeat constructor. Qed.

(** A sequence of requests, each of which is answered in any state. *)
Lemma session2_ok (c : collection) (run : request -> state2 -> res state2) :
  (forall r s, request_ok2 c r -> state2_ok s ->
     exists out s', run r s = Ok s' /\ pool_results (s2_pool s') = Ok out /\ state2_ok s' /\ answer_to c r out) ->
  forall rs s, state2_ok s -> Forall (request_ok2 c) rs ->
  exists outs s', session run (fun s => pool_results (s2_pool s)) rs s = Ok (outs, s') /\
    Forall2 (answer_to c) rs outs /\ state2_ok s'.
Proof.
  intros H rs s Hs Hr. revert s Hs. induction Hr as [|r rs Hr1 Hr IH]; intros s Hs.
  - exists [], s. cbn. auto.
  - destruct (H r s Hr1 Hs) as (out & s1 & E1 & E2 & E3 & E4). destruct (IH s1 E3) as (outs & s2 & F1 & F2 & F3).
    exists (out :: outs), s2. cbn [session]. rewrite E1. cbn [bind]. rewrite E2. cbn [bind]. rewrite F1. cbn [bind].
    split; [reflexivity|]. split; [now constructor|exact F3].
Qed.

Section Final.
  Variable K : containers.
  Hypothesis HK : containers_ok K.
  Variable c : collection.
  Hypothesis Hwf : wf_collection c.

  Lemma auto2_exact : some_kept_doc_positive c -> some_term_not_in_doc0 c -> exists x, ac2_build K (files_of c) = Ok x /\
    forall fuel k q ts last, query_fuel c < fuel -> query_split q ts last ->
      answers2 c k (ac2_prefix_topk K x fuel k q) (prefix_found c ts last) /\
      (forall s, state2_ok s ->
       exists out, topk_answer c (conj_by c (found c last) ts) (limit c k) out /\
       (reportable2 c out -> ~ overruns c ts k out -> ~ stumbles c ts last k out ->
        exists s', ac2_conjunctive_topk K x fuel k q s = Ok s' /\ pool_results (s2_pool s') = Ok out /\ state2_ok s') /\
       (~ reportable2 c out \/ overruns c ts k out \/ stumbles c ts last k out -> ac2_conjunctive_topk K x fuel k q s = UB)).
  Proof.
    intros Hpos H0. destruct (ac2_build_ok K HK c Hwf Hpos H0) as (x & at_ & E & Hx). exists x. split; [exact E|].
    intros fuel k q ts last Hf Hs. split.
    - unfold ac2_prefix_topk. eapply core_prefix_ok; eauto. apply Hx.
    - eapply ac2_conj_ok; eauto.
  Qed.

  Lemma auto3_exact : some_kept_doc_positive c -> exists x, ac3_build K (files_of c) = Ok x /\
    forall fuel k q ts last, query_fuel c < fuel -> query_split q ts last ->
      answers2 c k (ac3_prefix_topk K x fuel k q) (prefix_found c ts last) /\
      answers2 c k (ac3_conjunctive_topk K x fuel k q) (conj_by c (found c last) ts).
  Proof.
    intros Hpos. destruct (ac3_build_ok K HK c Hwf Hpos) as (x & at_ & E & Hx). exists x. split; [exact E|].
    intros fuel k q ts last Hf Hs. split.
    - unfold ac3_prefix_topk. eapply core_prefix_ok; eauto. apply Hx.
    - eapply ac3_conj_ok; eauto.
  Qed.

  Lemma kept_positive : not_multiple_of_17 (length (comps c)) -> some_doc_positive c -> some_kept_doc_positive c.
  Proof using Hwf. intros H17 H. unfold some_kept_doc_positive. rewrite stored_all; [exact H|]. rewrite (wf_docs_len c Hwf). exact H17. Qed.
  Lemma answers2_all k run (P Q : list (list N) -> Prop) : sizes_ok2 c -> 1 <= k <= MAX_K ->
    (forall ids, In ids (comps c) -> (P (words_of c ids) <-> Q (words_of c ids))) ->
    (forall s, state2_ok s -> exists out, topk_answer c P (limit c k) out /\
      (reportable2 c out -> exists s', run s = Ok s' /\ pool_results (s2_pool s') = Ok out /\ state2_ok s')) ->
    forall s, state2_ok s -> exists out, topk_answer c Q k out /\
      (fits_pool out -> exists s', run s = Ok s' /\ pool_results (s2_pool s') = Ok out /\ state2_ok s').
  Proof using Hwf.
    intros H17 Hk H HP s Hs. destruct (HP s Hs) as (out & A & B). rewrite limit_id in A by lia. exists out. split; [eapply topk_answer_ext; eauto|].
    intros Hf. apply B. refine (reportable2_all c Hwf _ out H17 (proj1 (proj2 (proj2 A))) Hf _). apply proj2, proj1 in A. lia.
  Qed.
  Lemma answers2_weak k run P : answers2 c k run P -> forall s, state2_ok s -> exists out, topk_answer c P (limit c k) out /\
      (reportable2 c out -> exists s', run s = Ok s' /\ pool_results (s2_pool s') = Ok out /\ state2_ok s').
  Proof using Type. intros H s Hs. destruct (H s Hs) as (out & A & B & _). eauto. Qed.
  Lemma no_overrun ts k out : 1 <= k <= MAX_K -> ~ overruns c ts k out.
  Proof using Type. intros Hk ([?|?] & _); lia.  Qed.

  Lemma no_stumble ts last k out : not_multiple_of_17 (length (comps c)) -> ~ stumbles c ts last k out.
  Proof using Hwf.
    intros H17 (_ & _ & d & ids & (i & Hd & _) & _ & Hlost & _). apply Hlost. rewrite stored_all by now rewrite (wf_docs_len c Hwf).
    eapply nth_error_In; eauto.
  Qed.

  Hypothesis H17 : sizes_ok2 c.
  Hypothesis Hpos : some_doc_positive c.

  (** As [answers2], when everything can be reported. *)
  Definition gives2 (k : nat) (run : state2 -> res state2) (P : list (list N) -> Prop) : Prop :=
    forall s, state2_ok s -> exists out, topk_answer c P k out /\
      (fits_pool out -> exists s', run s = Ok s' /\ pool_results (s2_pool s') = Ok out /\ state2_ok s').

  Lemma auto2_spec : some_term_not_in_doc0 c -> exists x, ac2_build K (files_of c) = Ok x /\
    forall fuel k q ts last, query_fuel c < fuel -> 1 <= k <= MAX_K -> query_split q ts last -> first_term_ok c last ->
      (first_completion_ok c ts last -> gives2 k (ac2_prefix_topk K x fuel k q) (prefix_match ts last)) /\
      gives2 k (ac2_conjunctive_topk K x fuel k q) (conj_match c ts last).
  Proof.
    intros H0. destruct (auto2_exact (kept_positive (proj2 H17) Hpos) H0) as (x & E & H). exists x. split; [exact E|].
    intros fuel k q ts last Hf Hk Hs Hft. destruct (H fuel k q ts last Hf Hs) as [A B]. split.
    - intros Hfc. refine (answers2_all k _ _ _ H17 Hk _ (answers2_weak _ _ _ A)). intros ids Hids. now apply prefix_found_match.
    - refine (answers2_all k _ (conj_by c (found c last) ts) _ H17 Hk _ _).
      2:{ intros s Hst. destruct (B s Hst) as (out & B1 & B2 & _). exists out. split; [exact B1|]. intros Hr. apply B2; [exact Hr|now apply no_overrun|apply no_stumble, H17]. }
      intros ids Hids. apply conj_by_found; auto. apply H17.
  Qed.

  Lemma auto3_spec : exists x, ac3_build K (files_of c) = Ok x /\
    forall fuel k q ts last, query_fuel c < fuel -> 1 <= k <= MAX_K -> query_split q ts last -> first_term_ok c last ->
      (first_completion_ok c ts last -> gives2 k (ac3_prefix_topk K x fuel k q) (prefix_match ts last)) /\
      gives2 k (ac3_conjunctive_topk K x fuel k q) (conj_match c ts last).
  Proof.
    destruct (auto3_exact (kept_positive (proj2 H17) Hpos)) as (x & E & H). exists x. split; [exact E|].
    intros fuel k q ts last Hf Hk Hs Hft. destruct (H fuel k q ts last Hf Hs) as [A B]. split.
    - intros Hfc. refine (answers2_all k _ _ _ H17 Hk _ (answers2_weak _ _ _ A)). intros ids Hids. now apply prefix_found_match.
    - refine (answers2_all k _ _ _ H17 Hk _ (answers2_weak _ _ _ B)). intros ids Hids. apply conj_by_found; auto. apply H17.
  Qed.

  Lemma request2_ok (pre conj : nat -> list N -> state2 -> res state2) :
    (forall k q ts last, 1 <= k <= MAX_K -> query_split q ts last -> first_term_ok c last ->
      (first_completion_ok c ts last -> gives2 k (pre k q) (prefix_match ts last)) /\
      gives2 k (conj k q) (conj_match c ts last)) ->
    forall r s, request_ok2 c r -> state2_ok s ->
      exists out s', (if rq_conj r then conj (rq_k r) (rq_text r) s else pre (rq_k r) (rq_text r) s) = Ok s' /\
        pool_results (s2_pool s') = Ok out /\ state2_ok s' /\ answer_to c r out.
  Proof.
    intros H r s [(Hk & Hft & Hfit) Hfc] Hs. destruct (query_split_exists_unique (rq_text r)) as (ts & last & Hsp & _).
    destruct (H (rq_k r) (rq_text r) ts last Hk Hsp (Hft ts last Hsp)) as [Hp Hc].
    unfold answer_to in *. destruct (rq_conj r).
    - destruct (Hc s Hs) as (o & A & B). destruct B as (s' & E1 & E2 & E3); [apply Hfit; eauto|]. exists o, s'. eauto 7.
    - destruct (Hp (Hfc eq_refl ts last Hsp) s Hs) as (o & A & B). destruct B as (s' & E1 & E2 & E3); [apply Hfit; eauto|]. exists o, s'. eauto 7.
  Qed.

  Lemma auto2_session : some_term_not_in_doc0 c -> exists x, ac2_build K (files_of c) = Ok x /\
    forall fuel rs s, query_fuel c < fuel -> state2_ok s -> Forall (request_ok2 c) rs ->
    exists outs s', session (ac2_request K x fuel) (fun s => pool_results (s2_pool s)) rs s = Ok (outs, s') /\
      Forall2 (answer_to c) rs outs /\ state2_ok s'.
  Proof.
    intros H0. destruct (auto2_spec H0) as (x & E & H). exists x. split; [exact E|]. intros fuel rs s Hf. apply session2_ok.
    unfold ac2_request. apply (request2_ok (ac2_prefix_topk K x fuel) (ac2_conjunctive_topk K x fuel)). eauto.
  Qed.
  Lemma auto3_session : exists x, ac3_build K (files_of c) = Ok x /\
    forall fuel rs s, query_fuel c < fuel -> state2_ok s -> Forall (request_ok2 c) rs ->
    exists outs s', session (ac3_request K x fuel) (fun s => pool_results (s2_pool s)) rs s = Ok (outs, s') /\
      Forall2 (answer_to c) rs outs /\ state2_ok s'.
  Proof.
    destruct auto3_spec as (x & E & H). exists x. split; [exact E|]. intros fuel rs s Hf. apply session2_ok.
    unfold ac3_request. apply (request2_ok (ac3_prefix_topk K x fuel) (ac3_conjunctive_topk K x fuel)). eauto.
  Qed.

  (** Types 1, 2 and 3 give the same results. *)
  Lemma types_agree : some_term_not_in_doc0 c ->
    exists x1 x2 x3, ac1_build K (files_of c) = Ok x1 /\ ac2_build K (files_of c) = Ok x2 /\ ac3_build K (files_of c) = Ok x3 /\
    forall fuel rs, query_fuel c < fuel -> Forall (request_ok2 c) rs ->
    exists outs s1 s2 s3,
      session (ac1_request K x1 fuel) (fun s => pool_results (s1_pool s)) rs state1_new = Ok (outs, s1) /\
      session (ac2_request K x2 fuel) (fun s => pool_results (s2_pool s)) rs state2_new = Ok (outs, s2) /\
      session (ac3_request K x3 fuel) (fun s => pool_results (s2_pool s)) rs state2_new = Ok (outs, s3).
  Proof.
    intros H0. destruct (auto1_session K HK c Hwf Hpos H0 (proj1 H17)) as (x1 & E1 & S1).
    destruct (auto2_session H0) as (x2 & E2 & S2). destruct auto3_session as (x3 & E3 & S3).
    exists x1, x2, x3. split; [exact E1|]. split; [exact E2|]. split; [exact E3|]. intros fuel rs Hf Hr.
    assert (Hr1 : Forall (request_ok c) rs) by (eapply Forall_impl; [|exact Hr]; intros r [A _]; exact A).
    destruct (S1 fuel rs state1_new Hf state1_new_ok Hr1) as (o1 & s1 & A1 & B1 & _).
    destruct (S2 fuel rs state2_new Hf state2_new_ok Hr) as (o2 & s2 & A2 & B2 & _).
    destruct (S3 fuel rs state2_new Hf state2_new_ok Hr) as (o3 & s3 & A3 & B3 & _).
    assert (Hu : forall o o', Forall2 (answer_to c) rs o -> Forall2 (answer_to c) rs o' -> o = o').
    { clear -Hwf. induction rs as [|r rs IH]; intros o o' H H'; inversion H; inversion H'; subst; [reflexivity|].
      f_equal; [eapply answer_to_unique; eauto|now apply IH]. }
    rewrite (Hu _ _ B2 B1) in A2. rewrite (Hu _ _ B3 B1) in A3. exists o1, s1, s2, s3. auto.
  Qed.
End Final.
