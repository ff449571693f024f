(** Indexes of one collection assembled from different containers. *)
From Coq Require Import Lia.
From Verif Require Import Base S_Order S_Vocab S_Parse M_Parse P_Parse M_Containers S_Containers M_Auto M_Auto1 S_Collection S_Index S_Room S_Found M_Auto2 S_Index2 S_Build M_Blocked S_Blocked.
From Verif Require Import P_Order P_Kept P_ParseFc P_Collection P_Auto1 P_Auto23 P_Auto4 P_Exact S_Meta P_Meta P_Again P_Relabel P_Build S_Platform.
Local Open Scope nat_scope.

Lemma platform_gives {S} (results : S -> res (list (nat * list N))) (ok : Prop) out r r' : gives results ok out r -> gives results ok out r' -> same_runs results results r r'.
Proof.
  intros G G'. split.
  - intros o. split; intros (s & E & Eo).
    + pose proof (gives_results results _ _ _ _ _ G E Eo) as ->. exact (gives_mono results _ _ _ _ _ _ s (fun x => x) G G' E).
    + pose proof (gives_results results _ _ _ _ _ G' E Eo) as ->. exact (gives_mono results _ _ _ _ _ _ s (fun x => x) G' G E).
  - rewrite (gives_ub results ok out r G), (gives_ub results ok out r' G'). reflexivity.
Qed.

Section Two.
  Context (K K' : containers) (HK : containers_ok K) (HK' : containers_ok K') (c : collection) (Hwf : wf_collection c).
  Lemma platform1 : some_doc_positive c -> some_term_not_in_doc0 c ->
    exists x x', ac1_build K (files_of c) = Ok x /\ ac1_build K' (files_of c) = Ok x' /\
      forall fuel fuel' r s t, query_fuel c < fuel -> query_fuel c < fuel' -> state1_ok s -> state1_ok t ->
      same_runs res1 res1 (ac1_request K x fuel r s) (ac1_request K' x' fuel' r t).
  Proof using HK HK' Hwf.
    intros Hp H0. destruct (ask1 K HK c Hwf Hp H0) as (x & E & H). destruct (ask1 K' HK' c Hwf Hp H0) as (x' & E' & H').
    exists x, x'. split; [exact E|]. split; [exact E'|]. intros fuel fuel' r s t Hf Hf' Hs Ht. destruct (query_split_exists_unique (rq_text r)) as (ts & last & Hq & _).
    destruct (H fuel r ts last s Hf Hq Hs) as (o & A & G). destruct (H' fuel' r ts last t Hf' Hq Ht) as (o' & A' & G').
    pose proof (answer_unique c Hwf _ _ _ _ A A') as <-. exact (platform_gives _ _ _ _ _ G G').
  Qed.
  Lemma platform2 : some_kept_doc_positive c -> some_term_not_in_doc0 c ->
    exists x x', ac2_build K (files_of c) = Ok x /\ ac2_build K' (files_of c) = Ok x' /\
      forall fuel fuel' r s t, query_fuel c < fuel -> query_fuel c < fuel' -> state2_ok s -> state2_ok t ->
      same_runs res2 res2 (ac2_request K x fuel r s) (ac2_request K' x' fuel' r t).
  Proof using HK HK' Hwf.
    intros Hp H0. destruct (ask2 K HK c Hwf Hp H0) as (x & E & H). destruct (ask2 K' HK' c Hwf Hp H0) as (x' & E' & H').
    exists x, x'. split; [exact E|]. split; [exact E'|]. intros fuel fuel' r s t Hf Hf' Hs Ht. destruct (query_split_exists_unique (rq_text r)) as (ts & last & Hq & _).
    destruct (H fuel r ts last s Hf Hq Hs) as (o & A & G). destruct (H' fuel' r ts last t Hf' Hq Ht) as (o' & A' & G').
    pose proof (answer_unique c Hwf _ _ _ _ A A') as <-. exact (platform_gives _ _ _ _ _ G G').
  Qed.
  Lemma platform3 : some_kept_doc_positive c ->
    exists x x', ac3_build K (files_of c) = Ok x /\ ac3_build K' (files_of c) = Ok x' /\
      forall fuel fuel' r s t, query_fuel c < fuel -> query_fuel c < fuel' -> state2_ok s -> state2_ok t ->
      same_runs res2 res2 (ac3_request K x fuel r s) (ac3_request K' x' fuel' r t).
  Proof using HK HK' Hwf.
    intros Hp. destruct (ask3 K HK c Hwf Hp) as (x & E & H). destruct (ask3 K' HK' c Hwf Hp) as (x' & E' & H').
    exists x, x'. split; [exact E|]. split; [exact E'|]. intros fuel fuel' r s t Hf Hf' Hs Ht. destruct (query_split_exists_unique (rq_text r)) as (ts & last & Hq & _).
    destruct (H fuel r ts last s Hf Hq Hs) as (o & A & G). destruct (H' fuel' r ts last t Hf' Hq Ht) as (o' & A' & G').
    pose proof (answer_unique c Hwf _ _ _ _ A A') as <-. exact (platform_gives _ _ _ _ _ G G').
  Qed.
End Two.

Lemma platform4 (K K' : bcontainers) c m m' : bcontainers_ok K -> bcontainers_ok K' -> wf_collection c -> few_postings c -> some_kept_doc_positive c ->
  exists x x', ac4_build K m (files_of c) = Ok x /\ ac4_build K' m' (files_of c) = Ok x' /\
    forall fuel fuel' r s t, query_fuel c < fuel -> query_fuel c < fuel' -> state2_ok s -> state2_ok t ->
    (rq_conj r = true -> 1 <= rq_k r /\ forall ts last, query_split (rq_text r) ts last ->
      query_exact_by c (found c last) (bi_bounds K (a4_inverted x)) ts /\ query_exact_by c (found c last) (bi_bounds K' (a4_inverted x')) ts) ->
    same_runs res2 res2 (ac4_request K x fuel r s) (ac4_request K' x' fuel' r t).
Proof.
  intros HK HK' Hwf Hfew Hp. destruct (ask4_texts K HK _ Hwf Hfew m Hp) as (x & E & H). destruct (ask4_texts K' HK' _ Hwf Hfew m' Hp) as (x' & E' & H').
  exists x, x'. split; [exact E|]. split; [exact E'|]. intros fuel fuel' r s t Hf Hf' Hs Ht Hx. destruct (query_split_exists_unique (rq_text r)) as (ts & last & Hq & _).
  destruct (proj2 (H fuel r Hf) ltac:(intros Hc; destruct (Hx Hc) as [Hk Hy]; split; [exact Hk|]; intros ts1 last1 Hq1; now apply Hy) ts last s Hq Hs) as (o & A & G).
  destruct (proj2 (H' fuel' r Hf') ltac:(intros Hc; destruct (Hx Hc) as [Hk Hy]; split; [exact Hk|]; intros ts1 last1 Hq1; now apply Hy) ts last t Hq Ht) as (o' & A' & G').
  pose proof (answer_unique c Hwf _ _ _ _ A A') as <-. exact (platform_gives _ _ _ _ _ G G').
Qed.

Lemma same_bounds (K K' : bcontainers) m f x x' : ac4_build K m f = Ok x -> ac4_build K' m f = Ok x' -> bi_bounds K (a4_inverted x) = bi_bounds K' (a4_inverted x').
Proof.
  unfold ac4_build, bi_build. intros H H'.
  destruct (core_build K f); try discriminate. destruct (core_build K' f); try discriminate. cbn [bind] in *.
  destruct (split_blocks _ _ _ _ _ _ _) as [bs| | |]; try discriminate. cbn [bind] in *.
  destruct (b_lists K _ _); try discriminate. destruct (b_offsets K _); try discriminate. destruct (b_terms K _); try discriminate.
  destruct (b_lists K' _ _); try discriminate. destruct (b_offsets K' _); try discriminate. destruct (b_terms K' _); try discriminate.
  cbn [bind] in *. injection H as <-. injection H' as <-. reflexivity.
Qed.

Lemma both_exact {I J} (b : res I) (b' : res J) (P : Prop) Q : builds_iff b P -> builds_iff b' P -> (P -> exists x x', b = Ok x /\ b' = Ok x' /\ Q x x') -> both_built b b' Q.
Proof. intros [[_ H]|[E H]] [[_ H']|[E' H']] HQ; [right; exact (HQ H)|contradiction|contradiction|left; now split]. Qed.

Section Both.
  Context (K K' : containers) (HK : containers_ok K) (HK' : containers_ok K') (H0 : throws_on_width0 K) (H0' : throws_on_width0 K') (c : collection) (Hwf : wf_collection c).
  Lemma both1 : both_built (ac1_build K (files_of c)) (ac1_build K' (files_of c)) (fun x x' =>
      forall fuel fuel' r s t, query_fuel c < fuel -> query_fuel c < fuel' -> state1_ok s -> state1_ok t ->
      same_runs res1 res1 (ac1_request K x fuel r s) (ac1_request K' x' fuel' r t)).
  Proof using HK HK' H0 H0' Hwf. eapply both_exact; [exact (ac1_exact K HK H0 c Hwf)|exact (ac1_exact K' HK' H0' c Hwf)|]. intros [A B]. now apply platform1. Qed.
  Lemma both2 : both_built (ac2_build K (files_of c)) (ac2_build K' (files_of c)) (fun x x' =>
      forall fuel fuel' r s t, query_fuel c < fuel -> query_fuel c < fuel' -> state2_ok s -> state2_ok t ->
      same_runs res2 res2 (ac2_request K x fuel r s) (ac2_request K' x' fuel' r t)).
  Proof using HK HK' H0 H0' Hwf. eapply both_exact; [exact (ac2_exact K HK H0 c Hwf)|exact (ac2_exact K' HK' H0' c Hwf)|]. intros [A B]. now apply platform2. Qed.
  Lemma both3 : both_built (ac3_build K (files_of c)) (ac3_build K' (files_of c)) (fun x x' =>
      forall fuel fuel' r s t, query_fuel c < fuel -> query_fuel c < fuel' -> state2_ok s -> state2_ok t ->
      same_runs res2 res2 (ac3_request K x fuel r s) (ac3_request K' x' fuel' r t)).
  Proof using HK HK' H0 H0' Hwf. eapply both_exact; [exact (ac3_exact K HK H0 c Hwf)|exact (ac3_exact K' HK' H0' c Hwf)|]. now apply platform3. Qed.
End Both.

Lemma both4 (K K' : bcontainers) c m : bcontainers_ok K -> bcontainers_ok K' -> throws_on_width0 K -> throws_on_width0 K' -> wf_collection c -> few_postings c ->
  both_built (ac4_build K m (files_of c)) (ac4_build K' m (files_of c)) (fun x x' =>
    forall fuel fuel' r s t, query_fuel c < fuel -> query_fuel c < fuel' -> state2_ok s -> state2_ok t ->
    (rq_conj r = true -> 1 <= rq_k r /\ forall ts last, query_split (rq_text r) ts last -> query_exact_by c (found c last) (bi_bounds K (a4_inverted x)) ts) ->
    same_runs res2 res2 (ac4_request K x fuel r s) (ac4_request K' x' fuel' r t)).
Proof.
  intros HK HK' H0 H0' Hwf Hfew. eapply both_exact; [exact (ac4_exact K HK H0 c Hwf Hfew m)|exact (ac4_exact K' HK' H0' c Hwf Hfew m)|].
  intros Hp. destruct (platform4 K K' c m m HK HK' Hwf Hfew Hp) as (x & x' & E & E' & H). exists x, x'. split; [exact E|]. split; [exact E'|].
  intros fuel fuel' r s t Hf Hf' Hs Ht Hx. apply H; auto. intros Hc. destruct (Hx Hc) as [Hk Hy]. split; [exact Hk|]. intros ts last Hq.
  rewrite <- (same_bounds K K' m _ x x' E E'). split; now apply Hy.
Qed.

Lemma both4_prefix (K K' : bcontainers) c m m' : bcontainers_ok K -> bcontainers_ok K' -> throws_on_width0 K -> throws_on_width0 K' -> wf_collection c -> few_postings c ->
  both_built (ac4_build K m (files_of c)) (ac4_build K' m' (files_of c)) (fun x x' =>
    forall fuel fuel' r s t, query_fuel c < fuel -> query_fuel c < fuel' -> state2_ok s -> state2_ok t -> rq_conj r = false ->
    same_runs res2 res2 (ac4_request K x fuel r s) (ac4_request K' x' fuel' r t)).
Proof.
  intros HK HK' H0 H0' Hwf Hfew. eapply both_exact; [exact (ac4_exact K HK H0 c Hwf Hfew m)|exact (ac4_exact K' HK' H0' c Hwf Hfew m')|].
  intros Hp. destruct (platform4 K K' c m m' HK HK' Hwf Hfew Hp) as (x & x' & E & E' & H). exists x, x'. split; [exact E|]. split; [exact E'|].
  intros fuel fuel' r s t Hf Hf' Hs Ht Hx. apply H; auto. congruence.
Qed.
