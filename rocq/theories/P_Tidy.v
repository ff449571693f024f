(** Answers list no text twice. *)
From Coq Require Import Sorted Lia.
From Verif Require Import Base S_Order S_Vocab S_Parse M_Parse P_Parse M_Containers S_Containers M_Auto M_Auto1 S_Collection S_Index S_Room S_Found M_Auto2 S_Index2 S_Build M_Blocked S_Blocked.
From Verif Require Import P_Order P_Kept P_ParseFc P_Collection P_Auto1 P_Auto23 P_Auto4 P_Exact S_Meta P_Meta P_Again S_Tidy.
Local Open Scope nat_scope.

Section Tidy.
  Context (c : collection) (Hwf : wf_collection c) (Hsp : no_spaces c).
  Lemma comps_nodup : NoDup (comps c).
  Proof using Hwf. apply lex_sorted_NoDup. exact (proj1 (wf_comps c Hwf)). Qed.
  Lemma text_inj d1 d2 ids1 ids2 : is_doc c d1 ids1 -> is_doc c d2 ids2 -> text c ids1 = text c ids2 -> d1 = d2.
  Proof using Hwf Hsp.
    intros H1 H2 E. destruct (query_split_exists_unique (text c ids1)) as (ts & last & Hq & _).
    pose proof (own_query c Hwf Hsp d1 ids1 ts last H1 Hq) as E1. rewrite E in Hq. pose proof (own_query c Hwf Hsp d2 ids2 ts last H2 Hq) as E2.
    assert (ids1 = ids2) as <-.
    { apply (words_inj c Hwf); [| |congruence]; apply Forall_forall; intros x Hx.
      - destruct (ids_range c Hwf ids1 x (is_doc_in c d1 ids1 H1) Hx) as (A & B & _). lia.
      - destruct (ids_range c Hwf ids2 x (is_doc_in c d2 ids2 H2) Hx) as (A & B & _). lia. }
    destruct H1 as (i & D1 & C1), H2 as (j & D2 & C2). assert (i = j) as <-; [|congruence].
    apply (proj1 (NoDup_nth_error _) comps_nodup); [apply nth_error_Some; congruence|congruence].
  Qed.
  Lemma topk_tidy P k out : topk_answer c P k out -> tidy c out.
  Proof using Hwf Hsp.
    intros H. pose proof (topk_texts c P k out H) as T. destruct H as (A & _). split; [exact A| |exact T].
    induction out as [|(d, s) out IH]; [constructor|]. cbn [map fst snd] in *. apply StronglySorted_inv in A. destruct A as [A F]. constructor.
    - intros Hin. apply in_map_iff in Hin. destruct Hin as ((e & s') & Es & Hin). cbn [snd] in Es. subst s'.
      destruct (T d s (or_introl eq_refl)) as (ids1 & H1 & E1). destruct (T e s (or_intror Hin)) as (ids2 & H2 & E2).
      assert (d = e) by (apply (text_inj d e ids1 ids2 H1 H2); congruence). subst e. rewrite Forall_forall in F.
      assert (d < d) by (apply F; apply in_map_iff; now exists (d, s)). lia.
    - apply IH; [exact A|]. intros d' s' H'. apply T. now right.
  Qed.
End Tidy.

Lemma tidy1 K c : containers_ok K -> wf_collection c -> no_spaces c -> some_doc_positive c -> some_term_not_in_doc0 c ->
  exists x, ac1_build K (files_of c) = Ok x /\
    forall fuel r s s' out, query_fuel c < fuel -> state1_ok s -> ac1_request K x fuel r s = Ok s' -> pool_results (s1_pool s') = Ok out -> tidy c out.
Proof.
  intros HK Hwf Hsp Hp H0. destruct (ask1 K HK c Hwf Hp H0) as (x & E & H). exists x. split; [exact E|]. intros fuel r s s' out Hf Hs Er Eo.
  destruct (query_split_exists_unique (rq_text r)) as (ts & last & Hq & _). destruct (H fuel r ts last s Hf Hq Hs) as (o & A & G).
  rewrite (gives_results res1 _ _ _ _ _ G Er Eo). exact (topk_tidy c Hwf Hsp _ _ _ A).
Qed.
Lemma tidy2 K c : containers_ok K -> wf_collection c -> no_spaces c -> some_kept_doc_positive c -> some_term_not_in_doc0 c ->
  exists x, ac2_build K (files_of c) = Ok x /\
    forall fuel r s s' out, query_fuel c < fuel -> state2_ok s -> ac2_request K x fuel r s = Ok s' -> pool_results (s2_pool s') = Ok out -> tidy c out.
Proof.
  intros HK Hwf Hsp Hp H0. destruct (ask2 K HK c Hwf Hp H0) as (x & E & H). exists x. split; [exact E|]. intros fuel r s s' out Hf Hs Er Eo.
  destruct (query_split_exists_unique (rq_text r)) as (ts & last & Hq & _). destruct (H fuel r ts last s Hf Hq Hs) as (o & A & G).
  rewrite (gives_results res2 _ _ _ _ _ G Er Eo). exact (topk_tidy c Hwf Hsp _ _ _ A).
Qed.
Lemma tidy3 K c : containers_ok K -> wf_collection c -> no_spaces c -> some_kept_doc_positive c ->
  exists x, ac3_build K (files_of c) = Ok x /\
    forall fuel r s s' out, query_fuel c < fuel -> state2_ok s -> ac3_request K x fuel r s = Ok s' -> pool_results (s2_pool s') = Ok out -> tidy c out.
Proof.
  intros HK Hwf Hsp Hp. destruct (ask3 K HK c Hwf Hp) as (x & E & H). exists x. split; [exact E|]. intros fuel r s s' out Hf Hs Er Eo.
  destruct (query_split_exists_unique (rq_text r)) as (ts & last & Hq & _). destruct (H fuel r ts last s Hf Hq Hs) as (o & A & G).
  rewrite (gives_results res2 _ _ _ _ _ G Er Eo). exact (topk_tidy c Hwf Hsp _ _ _ A).
Qed.
Lemma tidy4 (K : bcontainers) c m : bcontainers_ok K -> wf_collection c -> no_spaces c -> few_postings c -> some_kept_doc_positive c ->
  exists x, ac4_build K m (files_of c) = Ok x /\
    forall fuel r s s' out, query_fuel c < fuel -> state2_ok s -> ac4_request K x fuel r s = Ok s' -> pool_results (s2_pool s') = Ok out ->
    (forall d y, In (d, y) out -> exists ids, is_doc c d ids /\ y = text c ids) /\
    ((rq_conj r = true -> 1 <= rq_k r /\ forall ts last, query_split (rq_text r) ts last -> query_exact_by c (found c last) (bi_bounds K (a4_inverted x)) ts) -> tidy c out).
Proof.
  intros HK Hwf Hsp Hfew Hp. destruct (ask4_texts K HK c Hwf Hfew m Hp) as (x & E & H). exists x. split; [exact E|]. intros fuel r s s' out Hf Hs Er Eo.
  destruct (query_split_exists_unique (rq_text r)) as (ts & last & Hq & _). destruct (H fuel r Hf) as [H1 H2]. split.
  - destruct (H1 ts last s Hq Hs) as (o & A & G). rewrite (gives_results res2 _ _ _ _ _ G Er Eo). exact A.
  - intros Hx. destruct (H2 Hx ts last s Hq Hs) as (o & A & G). rewrite (gives_results res2 _ _ _ _ _ G Er Eo). exact (topk_tidy c Hwf Hsp _ _ _ A).
Qed.
