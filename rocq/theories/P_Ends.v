(** Every search ends. *)
From Verif Require Import Base S_Order S_Vocab S_Parse M_Containers S_Containers M_Auto M_Auto1 S_Collection S_Index S_Found S_Build M_Auto2 S_Index2 M_Blocked S_Blocked.
From Verif Require Import P_ParseFc P_Collection P_Auto1 P_Auto23 P_Auto4 P_Meta S_Ends.
Local Open Scope nat_scope.

(** A search of which the outcome is known: an answer, or undefined. *)
Definition decides {S} (ok : S -> Prop) (res_of : S -> pool) (r : res S) : Prop :=
  exists (P : Prop) out, (P -> exists s', r = Ok s' /\ pool_results (res_of s') = Ok out /\ ok s') /\ (~ P -> r = UB).

Lemma ends_stable {A} (r : res A) : ~ ~ ends r -> ends r.
Proof. destruct r; cbn; auto. Qed.
Lemma decides_ends {S} (ok : S -> Prop) res_of r : decides ok res_of r -> ends r.
Proof.
  intros (P & out & H & H'). apply ends_stable. intros Hn.
  assert (~ P) as Hp by (intros X; destruct (H X) as (s' & -> & _); now apply Hn). rewrite (H' Hp) in Hn. now apply Hn.
Qed.
Lemma decides_ok {S} (ok : S -> Prop) res_of s : decides ok res_of (Ok s) -> ~ ~ (exists out, pool_results (res_of s) = Ok out /\ ok s).
Proof.
  intros (P & out & H & H') Hn. assert (~ P) as Hp; [|specialize (H' Hp); discriminate].
  intros X. destruct (H X) as (s' & E & Eo & Ho). injection E as <-. eauto.
Qed.
(** A sequence of searches. *)
Lemma session_ends {S} (ok : S -> Prop) (res_of : S -> pool) (run : request -> S -> res S) :
  (forall r s, ok s -> decides ok res_of (run r s)) ->
  forall rs s, ok s -> ends (session run (fun s => pool_results (res_of s)) rs s).
Proof.
  intros H. induction rs as [|r rs IH]; intros s Hs; cbn [session]; [exact I|].
  pose proof (H r s Hs) as D. pose proof (decides_ends _ _ _ D) as E. destruct (run r s) as [s'| | |]; cbn [bind]; auto.
  apply ends_stable. intros Hn. apply (decides_ok _ _ _ D). intros (out & Eo & Ho). apply Hn. rewrite Eo. cbn [bind].
  specialize (IH s' Ho). destruct (session run _ rs s') as [[outs s'']| | |]; cbn in *; auto.
Qed.

Section Ends.
  Context (K : containers) (HK : containers_ok K) (c : collection) (Hwf : wf_collection c).
  Lemma ends1 : some_doc_positive c -> some_term_not_in_doc0 c -> exists x, ac1_build K (files_of c) = Ok x /\
    forall fuel rs s, query_fuel c < fuel -> state1_ok s -> ends (session (ac1_request K x fuel) (fun s => pool_results (s1_pool s)) rs s).
  Proof.
    intros Hp H0. destruct (auto1_exact K HK c Hwf Hp H0) as (x & E & H). exists x. split; [exact E|]. intros fuel rs s Hf Hs.
    apply (session_ends state1_ok); [|exact Hs]. clear rs s Hs. intros r s Hs. destruct (query_split_exists_unique (rq_text r)) as (ts & last & Hq & _).
    destruct (H fuel (rq_k r) (rq_text r) ts last s Hf Hq Hs) as [(o1 & _ & A1) (o2 & _ & A2)]. unfold ac1_request, decides. destruct (rq_conj r); eauto.
  Qed.
  Lemma ends2 : some_kept_doc_positive c -> some_term_not_in_doc0 c -> exists x, ac2_build K (files_of c) = Ok x /\
    forall fuel rs s, query_fuel c < fuel -> state2_ok s -> ends (session (ac2_request K x fuel) (fun s => pool_results (s2_pool s)) rs s).
  Proof.
    intros Hp H0. destruct (auto2_exact K HK c Hwf Hp H0) as (x & E & H). exists x. split; [exact E|]. intros fuel rs s Hf Hs.
    apply (session_ends state2_ok); [|exact Hs]. clear rs s Hs. intros r s Hs. destruct (query_split_exists_unique (rq_text r)) as (ts & last & Hq & _).
    destruct (H fuel (rq_k r) (rq_text r) ts last Hf Hq) as [A1 A2]. destruct (A1 s Hs) as (o1 & _ & B1). destruct (A2 s Hs) as (o2 & _ & B2 & B3).
    unfold ac2_request, decides. destruct (rq_conj r); [|eauto].
    exists (reportable2 c o2 /\ ~ (overruns c ts (rq_k r) o2 \/ stumbles c ts last (rq_k r) o2)), o2. split.
    - intros [Ho Hn]. apply B2; auto.
    - intros Hn. apply ub_stable. intros Hu. apply Hu, B3. left. intros Ho. apply Hn. split; [exact Ho|]. intros X. apply Hu, B3. now right.
  Qed.
  Lemma ends3 : some_kept_doc_positive c -> exists x, ac3_build K (files_of c) = Ok x /\
    forall fuel rs s, query_fuel c < fuel -> state2_ok s -> ends (session (ac3_request K x fuel) (fun s => pool_results (s2_pool s)) rs s).
  Proof.
    intros Hp. destruct (auto3_exact K HK c Hwf Hp) as (x & E & H). exists x. split; [exact E|]. intros fuel rs s Hf Hs.
    apply (session_ends state2_ok); [|exact Hs]. clear rs s Hs. intros r s Hs. destruct (query_split_exists_unique (rq_text r)) as (ts & last & Hq & _).
    destruct (H fuel (rq_k r) (rq_text r) ts last Hf Hq) as [A1 A2]. destruct (A1 s Hs) as (o1 & _ & B1). destruct (A2 s Hs) as (o2 & _ & B2).
    unfold ac3_request, decides. destruct (rq_conj r); eauto.
  Qed.
End Ends.
Lemma ends4 K : bcontainers_ok K -> forall c, wf_collection c -> few_postings c -> forall m, some_kept_doc_positive c -> exists x, ac4_build K m (files_of c) = Ok x /\
  forall fuel rs s, query_fuel c < fuel -> state2_ok s -> ends (session (ac4_request K x fuel) (fun s => pool_results (s2_pool s)) rs s).
Proof.
  intros HK c Hwf Hfew m Hp. destruct (auto4_exact K HK c Hwf Hfew m Hp) as (x & E & _ & H). exists x. split; [exact E|]. intros fuel rs s Hf Hs.
  apply (session_ends state2_ok); [|exact Hs]. clear rs s Hs. intros r s Hs. destruct (query_split_exists_unique (rq_text r)) as (ts & last & Hq & _).
  destruct (H fuel (rq_k r) (rq_text r) ts last s Hf Hq Hs) as [(o1 & _ & A1) (o2 & _ & A2)]. unfold ac4_request, decides. destruct (rq_conj r); eauto.
Qed.
