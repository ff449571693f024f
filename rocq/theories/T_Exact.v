(** What the indexes answer to every query, with the defects F1, F2 and F23: no condition on the query and on the sizes remains. *)
From Coq Require Import Sorted Permutation.
From Verif Require Import Base S_Order S_Vocab S_Parse M_Heap S_Heap M_Iter M_Intersect S_Intersect M_Containers S_Containers M_Auto M_Auto1 S_Collection S_Index S_Room S_Found S_Build.
From Verif Require Import M_Auto2 S_Index2 M_Blocked S_Blocked P_Collection P_ParseFc P_Pool P_Auto1 P_Core2 P_Auto23 P_Auto4 P_Extract P_Exact P_ListContainers P_BlockFinal.
From Verif Require Import M_Text M_Input S_Text S_Files M_CompactEf M_Real P_Real S_Json M_Web P_Web.
From Verif Require Import T_Auto1 T_Auto2 T_Auto4 T_Input T_Build T_End.
Local Open Scope nat_scope.

(** ** How this relates to the matches the user expects *)
(** Everything prefix search finds is a match; so is everything conjunctive search finds, unless a complete token is a
    term that the dictionary has lost (F23), which is then ignored like an unknown token. *)
Theorem C01_found_sound : forall c ts last ws,
  (prefix_by c (found c last) ts ws -> prefix_match ts last ws) /\
  (prefix_found c ts last ws -> prefix_match ts last ws) /\
  ((forall t, In t ts -> In t (terms c) -> known c t) -> conj_by c (found c last) ts ws -> conj_match c ts last ws).
Proof.
  intros c ts last ws. split; [|split].
  - intros (_ & w & rest & E & (H & _) & _). exists w, rest. auto.
  - intros ((_ & w & rest & E & (H & _) & _) & _). exists w, rest. auto.
  - intros K (A & w & B & (C & _) & _). split; [intros t H1 H2; apply A; auto|]. exists w. auto.
Qed.
Print Assumptions C01_found_sound.

(** Matches are missed only if a complete token or the word that extends the last token has been lost (F23), or this
    word is the first term and longer than the token (F1), *)
Theorem C01_found_missed : forall c ts last ws,
  let missed w := is_prefix last w /\ (~ known c w \/ w = nth 0 (terms c) [] /\ w <> last) in
  (prefix_match ts last ws -> ~ prefix_by c (found c last) ts ws ->
   (exists t, In t ts /\ ~ known c t) \/ last <> [] /\ exists w rest, ws = ts ++ w :: rest /\ missed w) /\
  (conj_match c ts last ws -> ~ conj_by c (found c last) ts ws ->
   last <> [] /\ (exists w, In w ws /\ missed w) /\ forall w, In w ws -> is_prefix last w -> missed w).
Proof.
  intros c ts last ws missed. unfold prefix_match, conj_match, prefix_by, conj_by, found, found_by. set (f := nth 0 (terms c) []).
  assert (Hkn : forall w, {known c w} + {~ known c w}) by (intros w; apply in_dec, list_eq_dec, N.eq_dec).
  assert (Hdec : forall w, is_prefix last w -> (is_prefix last w /\ (w = f -> last = [] \/ w = last)) /\ (last = [] \/ known c w) \/ last <> [] /\ missed w).
  { intros w Hw. destruct last as [|x last]; [left; auto|].
    destruct (Hkn w) as [Hk|Hk]; [|right; split; [discriminate|split; [exact Hw|now left]]].
    destruct (list_eq_dec N.eq_dec w f) as [Hf|Hf]; [|left; split; [split; [exact Hw|intros X; contradiction]|now right]].
    destruct (list_eq_dec N.eq_dec w (x :: last)) as [E|E]; [left; split; [split; [exact Hw|now right]|now right]|].
    right. split; [discriminate|]. split; [exact Hw|]. right. auto. }
  split.
  - intros (w & rest & E & Hw) Hn. destruct (Forall_Exists_dec (known c) Hkn ts) as [Hts|Hts].
    + destruct (Hdec w Hw) as [H|(H1 & H2)].
      * destruct Hn. split; [exact Hts|]. exists w, rest. auto.
      * right. split; [exact H1|]. exists w, rest. auto.
    + left. apply Exists_exists in Hts. exact Hts.
  - intros (A & w & Hin & Hw) Hn.
    assert (Hall : forall v, In v ws -> is_prefix last v -> last <> [] /\ missed v).
    { intros v Hv Hvp. destruct (Hdec v Hvp) as [H|H]; [|exact H]. destruct Hn. split; [|exists v; auto].
      intros t H1 H2. apply A; [exact H1|]. now apply known_in. }
    split; [exact (proj1 (Hall w Hin Hw))|]. split; [exists w; split; [exact Hin|exact (proj2 (Hall w Hin Hw))]|].
    intros v H1 H2. exact (proj2 (Hall v H1 H2)).
Qed.
Print Assumptions C01_found_missed.

(** or, in prefix searches of types 2, 3 and 4, the completion is the first one (F2) or has been lost (F23). *)
Theorem C06_found_missed : forall c ts last ws,
  prefix_by c (found c last) ts ws -> ~ prefix_found c ts last ws ->
  ws = words_of c (nth 0 (comps c) []) \/ forall ids, In ids (stored (comps c)) -> ws <> words_of c ids.
Proof.
  intros c ts last ws H Hn. destruct (list_eq_dec (list_eq_dec N.eq_dec) ws (words_of c (nth 0 (comps c) []))) as [E|E]; [now left|].
  right. intros ids Hin Hids. destruct Hn. split; [exact H|]. split; [exists ids; auto|]. intros X. contradiction.
Qed.
Print Assumptions C06_found_missed.

(** Nothing is lost if the numbers of terms and completions are not multiples of 17; prefix search then finds what the
    dictionary of completions holds, so that its answers can be reported if they fit. *)
Theorem C01_known_all : forall c w, sizes_ok c -> (known c w <-> In w (terms c)).
Proof. intros c w H. split; [apply known_in|exact (known_all c w H)]. Qed.
Theorem C08_reportable : forall c out, wf_collection c -> fits_pool out -> length out <= MAX_K ->
  (forall P, (forall d s, In (d, s) out -> exists ids, is_doc c d ids /\ P (words_of c ids) /\ s = text c ids) ->
   (sizes_ok c -> reportable c out) /\ (sizes_ok2 c -> reportable2 c out)) /\
  (forall ts last k, topk_answer c (prefix_found c ts last) k out -> sizes_ok c -> reportable2 c out).
Proof.
  intros c out Hwf Hf Hlen. split.
  - intros P Ho. split; intros H; [exact (reportable_all c Hwf P out H Ho Hf Hlen)|exact (reportable2_all c Hwf P out H Ho Hf Hlen)].
  - intros ts last k Ho H. split; [refine (reportable_all c Hwf (prefix_found c ts last) out H _ Hf Hlen); apply Ho|]. intros d s Hin. exact (prefix_found_stored c Hwf ts last k out d s Ho Hin).
Qed.
Definition all_known := (C01_known_all, C08_reportable).
Print Assumptions all_known.

(** ** Type 1 *)
Theorem C01_prefix_topk_exact_partial : forall K c,
  containers_ok K -> wf_collection c -> some_doc_positive c -> some_term_not_in_doc0 c ->
  exists x, ac1_build K (files_of c) = Ok x /\
    forall fuel k q ts last s, query_fuel c < fuel -> query_split q ts last -> state1_ok s ->
    exists out, topk_answer c (prefix_by c (found c last) ts) (limit c k) out /\
      (reportable c out ->
       exists s', ac1_prefix_topk K x fuel k q s = Ok s' /\ pool_results (s1_pool s') = Ok out /\ state1_ok s') /\
      (~ reportable c out -> ac1_prefix_topk K x fuel k q s = UB).
Proof.
  intros K c HK Hwf Hp H0. destruct (auto1_exact K HK c Hwf Hp H0) as (x & E & H). exists x. split; [exact E|].
  intros fuel k q ts last s A1 A3 A4. exact (proj1 (H fuel k q ts last s A1 A3 A4)).
Qed.
Theorem C02_conjunctive_topk_exact_partial : forall K c,
  containers_ok K -> wf_collection c -> some_doc_positive c -> some_term_not_in_doc0 c ->
  exists x, ac1_build K (files_of c) = Ok x /\
    forall fuel k q ts last s, query_fuel c < fuel -> query_split q ts last -> state1_ok s ->
    exists out, topk_answer c (conj_by c (found c last) ts) (limit c k) out /\
      (reportable c out ->
       exists s', ac1_conjunctive_topk K x fuel k q s = Ok s' /\ pool_results (s1_pool s') = Ok out /\ state1_ok s') /\
      (~ reportable c out -> ac1_conjunctive_topk K x fuel k q s = UB).
Proof.
  intros K c HK Hwf Hp H0. destruct (auto1_exact K HK c Hwf Hp H0) as (x & E & H). exists x. split; [exact E|].
  intros fuel k q ts last s A1 A3 A4. exact (proj2 (H fuel k q ts last s A1 A3 A4)).
Qed.

(** ** Types 2 and 3 *)
Theorem C03_conjunctive_topk_exact_partial : forall K c,
  containers_ok K -> wf_collection c -> some_kept_doc_positive c -> some_term_not_in_doc0 c ->
  exists x, ac2_build K (files_of c) = Ok x /\
    forall fuel k q ts last s, query_fuel c < fuel -> query_split q ts last -> state2_ok s ->
    exists out, topk_answer c (conj_by c (found c last) ts) (limit c k) out /\
      (reportable2 c out -> ~ overruns c ts k out -> ~ stumbles c ts last k out ->
       exists s', ac2_conjunctive_topk K x fuel k q s = Ok s' /\ pool_results (s2_pool s') = Ok out /\ state2_ok s') /\
      (~ reportable2 c out \/ overruns c ts k out \/ stumbles c ts last k out -> ac2_conjunctive_topk K x fuel k q s = UB).
Proof.
  intros K c HK Hwf Hp H0. destruct (auto2_exact K HK c Hwf Hp H0) as (x & E & H). exists x. split; [exact E|].
  intros fuel k q ts last s A1 A3 A4. exact (proj2 (H fuel k q ts last A1 A3) s A4).
Qed.
Theorem C04_conjunctive_topk_exact_partial : forall K c,
  containers_ok K -> wf_collection c -> some_kept_doc_positive c ->
  exists x, ac3_build K (files_of c) = Ok x /\
    forall fuel k q ts last s, query_fuel c < fuel -> query_split q ts last -> state2_ok s ->
    exists out, topk_answer c (conj_by c (found c last) ts) (limit c k) out /\
      (reportable2 c out ->
       exists s', ac3_conjunctive_topk K x fuel k q s = Ok s' /\ pool_results (s2_pool s') = Ok out /\ state2_ok s') /\
      (~ reportable2 c out -> ac3_conjunctive_topk K x fuel k q s = UB).
Proof.
  intros K c HK Hwf Hp. destruct (auto3_exact K HK c Hwf Hp) as (x & E & H). exists x. split; [exact E|].
  intros fuel k q ts last s A1 A3 A4. exact (proj2 (H fuel k q ts last A1 A3) s A4).
Qed.
Theorem C06_type2_prefix_exact_partial : forall K c,
  containers_ok K -> wf_collection c -> some_kept_doc_positive c -> some_term_not_in_doc0 c ->
  exists x, ac2_build K (files_of c) = Ok x /\
    forall fuel k q ts last s, query_fuel c < fuel -> query_split q ts last -> state2_ok s ->
    exists out, topk_answer c (prefix_found c ts last) (limit c k) out /\
      (reportable2 c out ->
       exists s', ac2_prefix_topk K x fuel k q s = Ok s' /\ pool_results (s2_pool s') = Ok out /\ state2_ok s') /\
      (~ reportable2 c out -> ac2_prefix_topk K x fuel k q s = UB).
Proof.
  intros K c HK Hwf Hp H0. destruct (auto2_exact K HK c Hwf Hp H0) as (x & E & H). exists x. split; [exact E|].
  intros fuel k q ts last s A1 A3 A4. exact (proj1 (H fuel k q ts last A1 A3) s A4).
Qed.
Theorem C06_type3_prefix_exact_partial : forall K c,
  containers_ok K -> wf_collection c -> some_kept_doc_positive c ->
  exists x, ac3_build K (files_of c) = Ok x /\
    forall fuel k q ts last s, query_fuel c < fuel -> query_split q ts last -> state2_ok s ->
    exists out, topk_answer c (prefix_found c ts last) (limit c k) out /\
      (reportable2 c out ->
       exists s', ac3_prefix_topk K x fuel k q s = Ok s' /\ pool_results (s2_pool s') = Ok out /\ state2_ok s') /\
      (~ reportable2 c out -> ac3_prefix_topk K x fuel k q s = UB).
Proof.
  intros K c HK Hwf Hp. destruct (auto3_exact K HK c Hwf Hp) as (x & E & H). exists x. split; [exact E|].
  intros fuel k q ts last s A1 A3 A4. exact (proj1 (H fuel k q ts last A1 A3) s A4).
Qed.

(** ** Type 4 *)
Theorem C05_conjunctive_topk_exact_partial : forall (K : bcontainers) c m,
  bcontainers_ok K -> wf_collection c -> few_postings c -> some_kept_doc_positive c ->
  exists x, ac4_build K m (files_of c) = Ok x /\
    let bounds := bi_bounds K (a4_inverted x) in blocks_of (length (terms c)) bounds /\
    forall fuel k q ts last s, query_fuel c < fuel -> query_split q ts last -> state2_ok s ->
    exists out, blocked_answer c bounds ts (found c last) k out /\
      (reportable2 c out ->
       exists s', ac4_conjunctive_topk K x fuel k q s = Ok s' /\ pool_results (s2_pool s') = Ok out /\ state2_ok s') /\
      (~ reportable2 c out -> ac4_conjunctive_topk K x fuel k q s = UB).
Proof.
  intros K c m HK Hwf Hfew Hp. destruct (auto4_exact K HK c Hwf Hfew m Hp) as (x & E & Hb & H). exists x. split; [exact E|]. split; [exact Hb|].
  intros fuel k q ts last s A1 A3 A4. exact (proj2 (H fuel k q ts last s A1 A3 A4)).
Qed.
(** What this means. Every result is a match, and there are at most k; *)
Theorem C05_blocked_sound : forall c bounds ts R k out, wf_collection c -> blocked_answer c bounds ts R k out ->
  StronglySorted le (map fst out) /\ (1 <= k -> length out <= k) /\
  forall d s, In (d, s) out -> exists ids, is_doc c d ids /\ conj_by c R ts (words_of c ids) /\ s = text c ids.
Proof.
  intros c bounds ts R k out Hwf H. destruct (blocked_sound c Hwf bounds ts R k out H) as (A & B & C). split; [exact A|]. split; [|exact C].
  intros Hk. destruct (Nat.eqb_spec k 0); [lia|exact B].
Qed.
(** a match is reported, unless k better ones are, or the search misses it: it is the first of the block of the complete
    tokens (F5, then it is not a candidate), it has only the greatest of the terms sought (F6), or it has a term of a searched
    block without having one of the terms sought there (F8); *)
Theorem C05_blocked_reported : forall c bounds ts R k out d i, blocked_answer c bounds ts R k out -> 1 <= k ->
  searched c bounds R i -> shown c bounds R i d ->
  (some_known c ts -> candidate c bounds ts d /\ forall j, searched c bounds R j -> held c bounds j d -> shown c bounds R j d) ->
  In d (map fst out) \/ length out = k /\ forall r, In r out -> fst r <= d.
Proof. exact blocked_reported. Qed.
(** without known complete tokens there is only one such answer; *)
Theorem C05_blocked_unique : forall c bounds ts R k out1 out2, wf_collection c -> ~ some_known c ts -> 1 <= k ->
  blocked_answer c bounds ts R k out1 -> blocked_answer c bounds ts R k out2 -> out1 = out2.
Proof. exact blocked_unique. Qed.
(** and the answer is the right one if the terms sought are in one block and F5 does not apply. *)
Theorem C05_blocked_topk : forall c bounds ts R k out, wf_collection c -> blocks_of (length (terms c)) bounds ->
  query_exact_by c R bounds ts -> 1 <= k -> blocked_answer c bounds ts R k out -> topk_answer c (conj_by c R ts) k out.
Proof. exact (fun c bounds ts R k out Hwf Hb He => blocked_exact c Hwf bounds ts R Hb He k out). Qed.
Theorem C06_type4_prefix_exact_partial : forall (K : bcontainers) c m,
  bcontainers_ok K -> wf_collection c -> few_postings c -> some_kept_doc_positive c ->
  exists x, ac4_build K m (files_of c) = Ok x /\
    forall fuel k q ts last s, query_fuel c < fuel -> query_split q ts last -> state2_ok s ->
    exists out, topk_answer c (prefix_found c ts last) (limit c k) out /\
      (reportable2 c out ->
       exists s', ac4_prefix_topk K x fuel k q s = Ok s' /\ pool_results (s2_pool s') = Ok out /\ state2_ok s') /\
      (~ reportable2 c out -> ac4_prefix_topk K x fuel k q s = UB).
Proof.
  intros K c m HK Hwf Hfew Hp. destruct (auto4_exact K HK c Hwf Hfew m Hp) as (x & E & _ & H). exists x. split; [exact E|].
  intros fuel k q ts last s A1 A3 A4. exact (proj1 (H fuel k q ts last s A1 A3 A4)).
Qed.

(** ** Reported strings (C08) and doc ids (C34) *)
Theorem C08_type1_strings_any_partial : forall K c,
  containers_ok K -> wf_collection c -> some_doc_positive c -> some_term_not_in_doc0 c ->
  exists x, ac1_build K (files_of c) = Ok x /\
    forall ds idss scores data,
    Forall2 (is_doc c) ds idss -> length scores = MAX_K -> firstn (length ds) scores = ds -> length data = POOL_SIZE ->
    let p0 := {| p_scores := scores; p_offsets := [0]; p_data := data |} in
    (reportable c (combine ds (map (text c) idss)) ->
     exists p, ac1_extract K x (length ds) p0 = Ok p /\ pool_results p = Ok (combine ds (map (text c) idss))) /\
    (~ reportable c (combine ds (map (text c) idss)) -> ac1_extract K x (length ds) p0 = UB).
Proof. exact ac1_strings_any. Qed.
Theorem C08_type23_strings_any_partial : forall K c,
  containers_ok K -> wf_collection c -> some_kept_doc_positive c ->
  exists x, core_build K (files_of c) = Ok x /\
    forall ds idss scores s,
    Forall2 (is_doc c) ds idss -> length scores = MAX_K -> firstn (length ds) scores = ds -> state2_ok s ->
    p_offsets (s2_pool s) = [0] ->
    (reportable2 c (combine ds (map (text c) idss)) ->
     exists s', finish x (length ds) scores s = Ok s' /\ pool_results (s2_pool s') = Ok (combine ds (map (text c) idss))) /\
    (~ reportable2 c (combine ds (map (text c) idss)) -> finish x (length ds) scores s = UB).
Proof. exact core_strings_any. Qed.
Theorem C34_index_any_partial : forall K c,
  containers_ok K -> wf_collection c -> some_kept_doc_positive c ->
  exists x, core_build K (files_of c) = Ok x /\ ul_size (co_docs x) = length (comps c) /\
    forall i, i < length (stored (comps c)) ->
    exists d, nth_error (docs c) i = Some d /\ ul_acc (co_docs x) i = Ok d /\ co_lexid x d = Ok (N.of_nat i).
Proof. exact core_bijection_any. Qed.

(** ** Any request: when it is answered, and when it accesses memory it must not (C38) *)
Theorem C38_type1_partial : forall K c,
  containers_ok K -> wf_collection c -> some_doc_positive c -> some_term_not_in_doc0 c ->
  exists x, ac1_build K (files_of c) = Ok x /\
    forall fuel r s out, query_fuel c < fuel -> state1_ok s -> answer_found1 c r out ->
    (reportable c out -> exists s', ac1_request K x fuel r s = Ok s' /\ pool_results (s1_pool s') = Ok out /\ state1_ok s') /\
    (~ reportable c out -> ac1_request K x fuel r s = UB).
Proof.
  intros K c HK Hwf Hp H0. destruct (auto1_exact K HK c Hwf Hp H0) as (x & E & H). exists x. split; [exact E|].
  intros fuel r s out A1 A2 A3. pose proof A3 as (ts & last & Hq & _). destruct (H fuel (rq_k r) (rq_text r) ts last s A1 Hq A2) as [Hpre Hconj].
  unfold ac1_request. assert (Hu : forall o, answer_found1 c r o -> o = out) by (intros o Ho; exact (answer_found1_unique c Hwf r o out Ho A3)).
  unfold answer_found1 in Hu. destruct (rq_conj r).
  - destruct Hconj as (o & B1 & B2 & B3). rewrite <- (Hu o ltac:(eauto)). split; assumption.
  - destruct Hpre as (o & B1 & B2 & B3). rewrite <- (Hu o ltac:(eauto)). split; assumption.
Qed.
Theorem C38_type2_partial : forall K c,
  containers_ok K -> wf_collection c -> some_kept_doc_positive c -> some_term_not_in_doc0 c ->
  exists x, ac2_build K (files_of c) = Ok x /\
    forall fuel r s ts last out, query_fuel c < fuel -> state2_ok s -> query_split (rq_text r) ts last -> answer_found2 c r out ->
    let over := rq_conj r = true /\ (overruns c ts (rq_k r) out \/ stumbles c ts last (rq_k r) out) in
    (reportable2 c out -> ~ over -> exists s', ac2_request K x fuel r s = Ok s' /\ pool_results (s2_pool s') = Ok out /\ state2_ok s') /\
    (~ reportable2 c out \/ over -> ac2_request K x fuel r s = UB).
Proof.
  intros K c HK Hwf Hp H0. destruct (auto2_exact K HK c Hwf Hp H0) as (x & E & H). exists x. split; [exact E|].
  intros fuel r s ts last out A1 A2 Hq A3. destruct (H fuel (rq_k r) (rq_text r) ts last A1 Hq) as [Hpre Hconj].
  unfold ac2_request. assert (Hu : forall o, answer_found2 c r o -> o = out) by (intros o Ho; exact (answer_found2_unique c Hwf r o out Ho A3)).
  unfold answer_found2 in Hu. destruct (rq_conj r).
  - destruct (Hconj s A2) as (o & B1 & B2 & B3). rewrite <- (Hu o ltac:(eauto)) in *. split.
    + intros C1 C2. apply B2; [exact C1| |]; intros X; apply C2; auto.
    + intros C. apply B3. destruct C as [C|[_ C]]; auto.
  - destruct (Hpre s A2) as (o & B1 & B2 & B3). rewrite <- (Hu o ltac:(eauto)) in *. split.
    + intros C1 _. now apply B2.
    + intros C. apply B3. destruct C as [C|[C _]]; [exact C|discriminate].
Qed.
Theorem C38_type3_partial : forall K c,
  containers_ok K -> wf_collection c -> some_kept_doc_positive c ->
  exists x, ac3_build K (files_of c) = Ok x /\
    forall fuel r s out, query_fuel c < fuel -> state2_ok s -> answer_found2 c r out ->
    (reportable2 c out -> exists s', ac3_request K x fuel r s = Ok s' /\ pool_results (s2_pool s') = Ok out /\ state2_ok s') /\
    (~ reportable2 c out -> ac3_request K x fuel r s = UB).
Proof.
  intros K c HK Hwf Hp. destruct (auto3_exact K HK c Hwf Hp) as (x & E & H). exists x. split; [exact E|].
  intros fuel r s out A1 A2 A3. pose proof A3 as (ts & last & Hq & _). destruct (H fuel (rq_k r) (rq_text r) ts last A1 Hq) as [Hpre Hconj].
  unfold ac3_request. assert (Hu : forall o, answer_found2 c r o -> o = out) by (intros o Ho; exact (answer_found2_unique c Hwf r o out Ho A3)).
  unfold answer_found2 in Hu. destruct (rq_conj r).
  - destruct (Hconj s A2) as (o & B1 & B2 & B3). rewrite <- (Hu o ltac:(eauto)) in *. split; assumption.
  - destruct (Hpre s A2) as (o & B1 & B2 & B3). rewrite <- (Hu o ltac:(eauto)) in *. split; assumption.
Qed.
(** With an index of type 4 the heap decides which answer it is. *)
Theorem C38_type4_partial : forall (K : bcontainers) c m,
  bcontainers_ok K -> wf_collection c -> few_postings c -> some_kept_doc_positive c ->
  exists x, ac4_build K m (files_of c) = Ok x /\
    forall fuel r s, query_fuel c < fuel -> state2_ok s ->
    exists out, answer_found4 c (bi_bounds K (a4_inverted x)) r out /\
    (reportable2 c out -> exists s', ac4_request K x fuel r s = Ok s' /\ pool_results (s2_pool s') = Ok out /\ state2_ok s') /\
    (~ reportable2 c out -> ac4_request K x fuel r s = UB).
Proof.
  intros K c m HK Hwf Hfew Hp. destruct (auto4_exact K HK c Hwf Hfew m Hp) as (x & E & _ & H). exists x. split; [exact E|].
  intros fuel r s A1 A2. destruct (query_split_exists_unique (rq_text r)) as (ts & last & Hq & _).
  destruct (H fuel (rq_k r) (rq_text r) ts last s A1 Hq A2) as [Hpre Hconj]. unfold ac4_request, answer_found4. destruct (rq_conj r).
  - destruct Hconj as (o & B1 & B2). exists o. split; [eauto|exact B2].
  - destruct Hpre as (o & B1 & B2). exists o. split; [eauto|exact B2].
Qed.

(** ** Sessions (C37) and agreement (C07), for requests with any query *)
Theorem C37_type1_any_partial : forall K c,
  containers_ok K -> wf_collection c -> some_doc_positive c -> some_term_not_in_doc0 c ->
  exists x, ac1_build K (files_of c) = Ok x /\
    forall fuel rs s, query_fuel c < fuel -> state1_ok s -> Forall (any_request (reportable c) (answer_found1 c)) rs ->
    exists outs s', session (ac1_request K x fuel) (fun s => pool_results (s1_pool s)) rs s = Ok (outs, s') /\
      Forall2 (answer_found1 c) rs outs /\ state1_ok s'.
Proof. exact (fun K c HK => auto1_any K HK c). Qed.
Theorem C37_type2_any_partial : forall K c,
  containers_ok K -> wf_collection c -> some_kept_doc_positive c -> some_term_not_in_doc0 c ->
  exists x, ac2_build K (files_of c) = Ok x /\
    forall fuel rs s, query_fuel c < fuel -> state2_ok s -> Forall (any_request2 c) rs ->
    exists outs s', session (ac2_request K x fuel) (fun s => pool_results (s2_pool s)) rs s = Ok (outs, s') /\
      Forall2 (answer_found2 c) rs outs /\ state2_ok s'.
Proof. exact (fun K c HK => auto2_any K HK c). Qed.
Theorem C37_type3_any_partial : forall K c,
  containers_ok K -> wf_collection c -> some_kept_doc_positive c ->
  exists x, ac3_build K (files_of c) = Ok x /\
    forall fuel rs s, query_fuel c < fuel -> state2_ok s -> Forall (any_request (reportable2 c) (answer_found2 c)) rs ->
    exists outs s', session (ac3_request K x fuel) (fun s => pool_results (s2_pool s)) rs s = Ok (outs, s') /\
      Forall2 (answer_found2 c) rs outs /\ state2_ok s'.
Proof. exact (fun K c HK => auto3_any K HK c). Qed.
Theorem C37_type4_any_partial : forall (K : bcontainers) c m,
  bcontainers_ok K -> wf_collection c -> few_postings c -> some_kept_doc_positive c ->
  exists x, ac4_build K m (files_of c) = Ok x /\
    forall fuel rs s, query_fuel c < fuel -> state2_ok s -> Forall (any_request (reportable2 c) (answer_found4 c (bi_bounds K (a4_inverted x)))) rs ->
    exists outs s', session (ac4_request K x fuel) (fun s => pool_results (s2_pool s)) rs s = Ok (outs, s') /\
      Forall2 (answer_found4 c (bi_bounds K (a4_inverted x))) rs outs /\ state2_ok s'.
Proof. exact (fun K c m HK => auto4_any K HK c m). Qed.
Theorem C37_any_unique : forall c r out1 out2, wf_collection c ->
  (answer_found1 c r out1 -> answer_found1 c r out2 -> out1 = out2) /\ (answer_found2 c r out1 -> answer_found2 c r out2 -> out1 = out2).
Proof. intros c r o1 o2 Hwf. split; [exact (answer_found1_unique c Hwf r o1 o2)|exact (answer_found2_unique c Hwf r o1 o2)]. Qed.

(** Types 2 and 3 agree on every query; types 1, 2 and 3 on every conjunctive query. *)
Theorem C07_types23_any_partial : forall K c,
  containers_ok K -> wf_collection c -> some_kept_doc_positive c -> some_term_not_in_doc0 c ->
  exists x2 x3, ac2_build K (files_of c) = Ok x2 /\ ac3_build K (files_of c) = Ok x3 /\
  forall fuel rs, query_fuel c < fuel -> Forall (any_request2 c) rs ->
  exists outs s2 s3,
    session (ac2_request K x2 fuel) (fun s => pool_results (s2_pool s)) rs state2_new = Ok (outs, s2) /\
    session (ac3_request K x3 fuel) (fun s => pool_results (s2_pool s)) rs state2_new = Ok (outs, s3).
Proof. exact (fun K c HK => agree23_any K HK c). Qed.
Theorem C07_types12_conjunctive_any_partial : forall K c,
  containers_ok K -> wf_collection c -> some_kept_doc_positive c -> some_doc_positive c -> some_term_not_in_doc0 c ->
  exists x1 x2, ac1_build K (files_of c) = Ok x1 /\ ac2_build K (files_of c) = Ok x2 /\
  forall fuel rs, query_fuel c < fuel -> Forall (any_request2 c) rs -> Forall (fun r => rq_conj r = true) rs ->
  exists outs s1 s2,
    session (ac1_request K x1 fuel) (fun s => pool_results (s1_pool s)) rs state1_new = Ok (outs, s1) /\
    session (ac2_request K x2 fuel) (fun s => pool_results (s2_pool s)) rs state2_new = Ok (outs, s2).
Proof. exact (fun K c HK => agree12_any K HK c). Qed.

(** ** On bits, from the text of the input files *)
Theorem C37_program_any_bits_partial : forall tail heap sort c t fuel junk rs,
  (tail < 2 ^ 64)%N -> (forall A, std_heap (heap A)) -> sorts_by_size ce_ops sort ->
  wf_collection c -> some_kept_doc_positive c -> some_doc_positive c -> some_term_not_in_doc0 c ->
  holds_collection c t -> length (t_mapped t) < fuel -> query_fuel c < fuel ->
  let K := real_containers tail heap sort in
  (Forall (any_request (reportable c) (answer_found1 c)) rs -> exists outs, program1 K fuel junk t rs = Ok outs /\ Forall2 (answer_found1 c) rs outs) /\
  (Forall (any_request2 c) rs -> exists outs, program2 K fuel junk t rs = Ok outs /\ Forall2 (answer_found2 c) rs outs) /\
  (Forall (any_request (reportable2 c) (answer_found2 c)) rs -> exists outs, program3 K fuel junk t rs = Ok outs /\ Forall2 (answer_found2 c) rs outs).
Proof.
  intros tail heap sort c t fuel junk rs H1 H2 H3 Hwf Hk Hp H0 Ht Hf Hq K. unfold program1, program2, program3, from_files.
  pose proof (real_containers_ok tail heap sort H1 H2 H3) as HK. fold K in HK.
  rewrite !(C44_files c t _ fuel junk Hwf Ht Hf). cbn [bind]. split; [|split]; intros Hr.
  - destruct (C37_type1_any_partial K c HK Hwf Hp H0) as (x & E & H).
    destruct (H fuel rs state1_new Hq state1_new_ok Hr) as (outs & s' & E' & Ha & _). rewrite E. cbn [bind]. rewrite E'. cbn [bind]. eauto.
  - destruct (C37_type2_any_partial K c HK Hwf Hk H0) as (x & E & H).
    destruct (H fuel rs state2_new Hq state2_new_ok Hr) as (outs & s' & E' & Ha & _). rewrite E. cbn [bind]. rewrite E'. cbn [bind]. eauto.
  - destruct (C37_type3_any_partial K c HK Hwf Hk) as (x & E & H).
    destruct (H fuel rs state2_new Hq state2_new_ok Hr) as (outs & s' & E' & Ha & _). rewrite E. cbn [bind]. rewrite E'. cbn [bind]. eauto.
Qed.

Theorem C37_program4_any_bits_partial : forall tail heap sort bsort c m t fuel junk rs,
  (tail < 2 ^ 64)%N -> (forall A, std_heap (heap A)) -> sorts_by_size ce_ops sort -> (forall A key l, Permutation (bsort A key l) l) ->
  wf_collection c -> few_postings c -> some_kept_doc_positive c ->
  holds_collection c t -> length (t_mapped t) < fuel -> query_fuel c < fuel ->
  let K := real_bcontainers tail heap sort bsort in
  exists x, from_files (ac4_build K m) false fuel junk t = Ok x /\
    let bounds := bi_bounds K (a4_inverted x) in blocks_of (length (terms c)) bounds /\
    (Forall (any_request (reportable2 c) (answer_found4 c bounds)) rs ->
     exists outs, program4 K m fuel junk t rs = Ok outs /\ Forall2 (answer_found4 c bounds) rs outs).
Proof.
  intros tail heap sort bsort c m t fuel junk rs H1 H2 H3 H4 Hwf Hfew Hp Ht Hf Hq K. unfold program4, from_files.
  pose proof (real_bcontainers_ok tail heap sort H1 H2 H3 bsort H4) as HK. fold K in HK.
  rewrite !(C44_files c t _ fuel junk Hwf Ht Hf). cbn [bind].
  destruct (C37_type4_any_partial K c m HK Hwf Hfew Hp) as (x & E & H). destruct (C05_conjunctive_topk_exact_partial K c m HK Hwf Hfew Hp) as (x' & E' & Hb & _).
  rewrite E in E'. injection E' as <-. exists x. split; [exact E|]. split; [exact Hb|]. intros Hr.
  destruct (H fuel rs state2_new Hq state2_new_ok Hr) as (outs & s' & Es & Ha & _). rewrite E. cbn [bind]. rewrite Es. cbn [bind]. eauto.
Qed.

(** ** /topcomp, for every query *)
Theorem C39_topcomp_exact_partial : forall K c,
  containers_ok K -> wf_collection c -> some_doc_positive c -> some_term_not_in_doc0 c ->
  exists x, ac1_build K (files_of c) = Ok x /\
    forall fuel k q kvar ts last s,
    query_fuel c < fuel -> (kvar = [] /\ k = 10 \/ decimal kvar k) -> (N.of_nat k < 4294967296)%N ->
    query_split q ts last -> state1_ok s ->
    exists out, topk_answer c (conj_by c (found c last) ts) (limit c k) out /\
      (reportable c out -> out <> [] -> Forall (fun r => ~ In 37%N (snd r)) out ->
       exists data v s', topcomp K x fuel q kvar s = Ok (data, s') /\ is_json data v /\ suggestions (map snd out) v /\ state1_ok s') /\
      (~ reportable c out -> topcomp K x fuel q kvar s = UB).
Proof.
  intros K c HK Hwf Hp H0. destruct (auto1_exact K HK c Hwf Hp H0) as (x & E & H). exists x. split; [exact E|].
  intros fuel k q kvar ts last s A1 A2 A3 A5 A7. destruct (H fuel k q ts last s A1 A5 A7) as (_ & out & Ho & Hq & Hub). exists out. split; [exact Ho|].
  assert (Ek : (match kvar with [] => Ok 10%N | _ => stoull kvar end) = Ok (N.of_nat k)).
  { destruct A2 as [[-> ->]|A2]; [reflexivity|]. destruct kvar as [|b kvar]; [destruct A2 as ((A2 & _) & _); congruence|].
    apply stoull_ok; [exact A2|]. lia. }
  unfold topcomp. rewrite Ek. cbn [bind]. rewrite N.mod_small, Nat2N.id by lia. split.
  - intros B1 B2 B3. destruct (Hq B1) as (s' & Es & Er & Hs').
    destruct (body_json _ _ Er B2) as (data & v & Eb & Hj & Hv). exists data, v, s'.
    split; [|split; [exact Hj|split; [exact Hv|exact Hs']]]. rewrite Es. cbn [bind]. rewrite Eb. cbn [bind].
    rewrite (body_printf _ _ _ Er B2 Eb B3). reflexivity.
  - intros B. rewrite (Hub B). reflexivity.
Qed.

Definition all_exact := (C01_prefix_topk_exact_partial, C02_conjunctive_topk_exact_partial, C03_conjunctive_topk_exact_partial,
  C04_conjunctive_topk_exact_partial, C05_conjunctive_topk_exact_partial, C06_type2_prefix_exact_partial, C06_type3_prefix_exact_partial,
  C06_type4_prefix_exact_partial, C08_type1_strings_any_partial, C08_type23_strings_any_partial, C34_index_any_partial, C05_blocked_sound, C05_blocked_reported, C05_blocked_unique, C05_blocked_topk,
  C38_type1_partial, C38_type2_partial, C38_type3_partial, C38_type4_partial, C37_program4_any_bits_partial, C37_type1_any_partial, C37_type2_any_partial, C37_type3_any_partial, C37_type4_any_partial, C37_any_unique,
  C07_types23_any_partial, C07_types12_conjunctive_any_partial, C37_program_any_bits_partial, C39_topcomp_exact_partial).
Print Assumptions all_exact.

(** ** Non-vacuity: the collections of F1 and F2 with the queries that run into them *)
Lemma query_a : query_split [97]%N [] [97]%N.
Proof. exists []. split; [reflexivity|]. split; [repeat constructor; discriminate|constructor]. Qed.
Lemma f1_no_a : topk_answer coll_f1 (conj_by coll_f1 (found coll_f1 [97%N]) []) 1 [].
Proof.
  apply answer_nil. intros ids Hin (_ & w & Hw & ([t Ht] & Hf) & _). cbn in Hin. destruct Hin as [<-|[<-|[]]]; cbn in Hw; destruct Hw as [<-|[]]; [|discriminate].
  destruct (Hf eq_refl); discriminate.
Qed.
Lemma f2_no_a : topk_answer coll_f2 (prefix_found coll_f2 [] [97%N]) 1 [].
Proof.
  apply answer_nil. intros ids Hin ((_ & w & rest & E & ([t Ht] & _) & _) & _ & Hf). cbn in Hin. destruct Hin as [<-|[<-|[]]]; cbn in E; injection E as <- <-; [|discriminate].
  destruct (Hf eq_refl) as (w & E & _). discriminate.
Qed.
Lemma reportable_nil c : reportable2 c [].
Proof. exact (reportable2_nil c). Qed.
Example found_nonvacuous :
  wf_collection coll_f1 /\ some_doc_positive coll_f1 /\ some_term_not_in_doc0 coll_f1 /\
  (let r := {| rq_conj := true; rq_k := 1; rq_text := [97]%N |} in
   any_request (reportable coll_f1) (answer_found1 coll_f1) r /\ answer_found1 coll_f1 r [] /\ run1 coll_f1 [r] = Ok [[]]) /\
  wf_collection coll_f2 /\ some_kept_doc_positive coll_f2 /\ some_term_not_in_doc0 coll_f2 /\
  (let r := {| rq_conj := false; rq_k := 1; rq_text := [97]%N |} in
   any_request2 coll_f2 r /\ answer_found2 coll_f2 r [] /\ run2 coll_f2 [r] = Ok [[]]) /\
  (** A query with a NUL byte, which is part of an unknown token. *)
  run1 coll_f2 [{| rq_conj := true; rq_k := 10; rq_text := [98; 0; 32; 97]%N |}] = Ok [[(1, [97; 32; 98]%N)]].
Proof.
  destruct C01_first_term_refuted as (A1 & A2 & A3 & A4 & _). destruct C06_first_completion_refuted as (B1 & B2 & B3 & B4 & _).
  assert (F1 : answer_found1 coll_f1 {| rq_conj := true; rq_k := 1; rq_text := [97]%N |} []) by (exists [], [97%N]; split; [exact query_a|exact f1_no_a]).
  assert (F2 : answer_found2 coll_f2 {| rq_conj := false; rq_k := 1; rq_text := [97]%N |} []) by (exists [], [97%N]; split; [exact query_a|exact f2_no_a]).
  split; [exact A1|]. split; [exact A3|]. split; [exact A4|].
  split.
  { split; [|split; [exact F1|vm_compute; reflexivity]]. intros out Ho.
    rewrite <- (answer_found1_unique coll_f1 A1 _ _ _ F1 Ho). apply reportable_nil. }
  split; [exact B1|]. split; [exact (kept_positive coll_f2 B1 (proj2 B2) B3)|]. split; [exact B4|]. split; [|vm_compute; reflexivity].
  split; [|split; [exact F2|vm_compute; reflexivity]]. split; [discriminate|]. intros out Ho.
  rewrite <- (answer_found2_unique coll_f2 B1 _ _ _ F2 Ho). apply reportable_nil.
Qed.

(** F23 seen by the user: the completions "a", …, "q" of one word each. 17 terms, of which the dictionary has lost all but
    "a": the query "b" finds nothing; "b a" ignores the "b" and finds "a"; the query "" finds them all, and reporting the
    second best, "b", reads past the dictionary. *)
Theorem C01_lost_terms_refuted :
  wf_collection coll_17 /\ some_doc_positive coll_17 /\ some_term_not_in_doc0 coll_17 /\
  (let ask conj k q := run1 coll_17 [{| rq_conj := conj; rq_k := k; rq_text := q |}] in
   ask false 1 [98]%N = Ok [[]] /\ ask true 1 [98]%N = Ok [[]] /\ ask true 1 [98; 32; 97]%N = Ok [[(0, [97]%N)]] /\
   ask false 1 []%N = Ok [[(0, [97]%N)]] /\ ask false 2 []%N = UB /\ ask true 2 []%N = UB) /\
  ~ topk_answer coll_17 (prefix_match [] [98%N]) 1 [] /\ ~ topk_answer coll_17 (conj_match coll_17 [] [98%N]) 1 [] /\
  ~ topk_answer coll_17 (conj_match coll_17 [[98%N]] [97%N]) 1 [(0, [97%N])].
Proof.
  split; [apply wf_collectionb_ok; vm_compute; reflexivity|]. split; [exists 1; cbn; auto|].
  split; [exists 2; split; [cbn; lia|]; intros H; vm_compute in H; repeat (destruct H as [H|H]; try discriminate H); exact H|].
  split; [vm_compute; repeat split|].
  assert (Hd : is_doc coll_17 1 [2%N]) by (exists 1; split; reflexivity). split; [|split].
  - intros (_ & _ & _ & H). destruct (H 1 [2%N] Hd) as [[]|[H2 _]]; [|discriminate]. exists [98%N], []. split; [reflexivity|]. now exists [].
  - intros (_ & _ & _ & H). destruct (H 1 [2%N] Hd) as [[]|[H2 _]]; [|discriminate]. split; [intros t []|].
    exists [98%N]. split; [now left|]. now exists [].
  - intros (_ & _ & H & _). destruct (H 0 [97%N]) as (ids & (i & Hi & Hc) & (Hm & _) & _); [now left|].
    assert (i = 0) as ->. { do 17 (destruct i as [|i]; [try reflexivity; discriminate|]). destruct i; discriminate. }
    injection Hc as <-. destruct (Hm [98%N]) as [E|[]]; [now left|right; now left|discriminate].
Qed.
Print Assumptions C01_lost_terms_refuted.

(** The exact theorems speak about this collection, too: 18 completions over these 17 terms. *)
Definition coll_lost : collection :=
  {| terms := terms coll_17; comps := [1]%N :: [1; 1]%N :: map (fun i => [N.of_nat (2 + i)]) (seq 0 16); docs := seq 0 18; universe := 18 |}.
Lemma lost_no_b : topk_answer coll_lost (conj_by coll_lost (found coll_lost [98%N]) []) 1 [].
Proof.
  apply answer_nil. intros ids Hin (_ & w & Hw & ([t Ht] & _) & [X|Hk]); [discriminate|]. destruct Hk as [<-|[]]. discriminate.
Qed.
Example lost_nonvacuous :
  wf_collection coll_lost /\ ~ sizes_ok coll_lost /\ some_kept_doc_positive coll_lost /\ some_term_not_in_doc0 coll_lost /\ few_postings coll_lost /\
  (let r := {| rq_conj := true; rq_k := 1; rq_text := [98]%N |} in
   any_request2 coll_lost r /\ answer_found2 coll_lost r [] /\ run2 coll_lost [r] = Ok [[]] /\ run3 coll_lost [r] = Ok [[]]) /\
  run3 coll_lost [{| rq_conj := true; rq_k := 10; rq_text := [97]%N |}] = Ok [[(0, [97]%N); (1, [97; 32; 97]%N)]].
Proof.
  assert (A : wf_collection coll_lost) by (apply wf_collectionb_ok; vm_compute; reflexivity).
  assert (F : answer_found2 coll_lost {| rq_conj := true; rq_k := 1; rq_text := [98]%N |} []).
  { exists [], [98%N]. split; [|exact lost_no_b]. exists []. split; [reflexivity|]. split; [repeat constructor; discriminate|constructor]. }
  split; [exact A|]. split; [intros H; now apply H|]. split; [exists 1; split; [right; now left|lia]|].
  split; [exists 2; split; [cbn; lia|]; intros H; vm_compute in H; repeat (destruct H as [H|H]; try discriminate H); exact H|].
  split; [reflexivity|]. split; [|vm_compute; reflexivity].
  split; [|split; [exact F|split; vm_compute; reflexivity]]. split.
  { intros _ ts last out _ _. split; [|apply (no_stumble coll_lost A); discriminate].
    intros ([X|X] & _); [discriminate|unfold MAX_K in X; cbn in X; lia]. }
  intros out Ho.
  rewrite <- (answer_found2_unique coll_lost A _ _ _ F Ho). apply reportable_nil.
Qed.

(** ** Any k (F10) *)
(** For every k, a conjunctive search with an index of type 1 or 3 is answered if there are at most 15 results (and they can
    be reported), even if more are asked for; but one with an index of type 2 fails if it finds exactly 15 results and a
    further completion has the complete tokens: 15 completions "a b …" and "a c", query "a b". *)
Definition coll_over : collection :=
  {| terms := [[97]; [98]; [99]]%N; comps := map (fun i => 1%N :: repeat 2%N (S i)) (seq 0 15) ++ [[1; 3]%N]; docs := seq 0 16; universe := 16 |}.
Definition over_results : list (nat * list N) := map (fun i => (i, text coll_over (1%N :: repeat 2%N (S i)))) (seq 0 15).
Lemma query_ab : query_split [97; 32; 98]%N [[97]%N] [98]%N.
Proof.
  exists [97; 32]%N. split; [reflexivity|]. split; [repeat constructor; discriminate|].
  apply (words_word [97%N] [] []); [discriminate|repeat constructor; discriminate|constructor].
Qed.
Lemma over_answer k : 15 <= k -> topk_answer coll_over (conj_by coll_over (found coll_over [98%N]) [[97%N]]) k over_results.
Proof.
  intros Hk. split; [vm_compute; repeat constructor|]. split; [cbn; lia|]. split.
  - intros d s Hin. unfold over_results in Hin. apply in_map_iff in Hin. destruct Hin as (i & E & Hi). injection E as <- <-. apply in_seq in Hi.
    exists (1%N :: repeat 2%N (S i)). split.
    + exists i. split; [cbn [docs coll_over]; rewrite nth_error_nth' with (d := 0) by (rewrite seq_length; lia); f_equal; rewrite seq_nth; lia|].
      cbn [comps coll_over]. rewrite nth_error_app1 by (rewrite map_length, seq_length; lia).
      rewrite nth_error_map, nth_error_nth' with (d := 0) by (rewrite seq_length; lia). cbn [option_map]. rewrite seq_nth by lia. reflexivity.
    + split; [|reflexivity]. split; [intros t [<-|[]] _; now left|]. exists [98%N]. split; [right; now left|].
      split; [split; [now exists []|intros E; discriminate]|right; vm_compute; auto].
  - intros d ids (i & Hd & Hc) (_ & w & Hw & (Hp & _) & _). left. unfold over_results. apply in_map_iff. exists i.
    assert (Hi : i < 15 \/ 15 <= i) by lia. destruct Hi as [Hi|Hi].
    + cbn [docs comps coll_over] in *. rewrite nth_error_app1 in Hc by (rewrite map_length, seq_length; lia).
      rewrite nth_error_map, nth_error_nth' with (d := 0) in Hc by (rewrite seq_length; lia). cbn [option_map] in Hc. rewrite seq_nth in Hc by lia.
      rewrite nth_error_nth' with (d := 0) in Hd by (rewrite seq_length; lia). rewrite seq_nth in Hd by lia.
      injection Hc as <-. injection Hd as <-. split; [reflexivity|]. apply in_seq. lia.
    + do 15 (destruct i as [|i]; [lia|]). destruct i as [|i]; [|destruct i; discriminate]. injection Hc as <-. cbn in Hw.
      destruct Hp as [t Ht]. destruct Hw as [<-|[<-|[]]]; discriminate.
Qed.
Theorem C38_type2_overrun_refuted :
  wf_collection coll_over /\ sizes_ok2 coll_over /\ some_doc_positive coll_over /\ some_term_not_in_doc0 coll_over /\
  query_split [97; 32; 98]%N [[97%N]] [98%N] /\
  (forall k, 15 <= k -> topk_answer coll_over (conj_by coll_over (found coll_over [98%N]) [[97%N]]) k over_results) /\
  reportable2 coll_over over_results /\ overruns coll_over [[97%N]] 0 over_results /\
  (let ask k := [{| rq_conj := true; rq_k := k; rq_text := [97; 32; 98]%N |}] in
   run1 coll_over (ask 0) = Ok [over_results] /\ run1 coll_over (ask 100) = Ok [over_results] /\
   run3 coll_over (ask 0) = Ok [over_results] /\ run3 coll_over (ask 100) = Ok [over_results] /\
   run2 coll_over (ask 15) = Ok [over_results] /\ run2 coll_over (ask 0) = UB /\ run2 coll_over (ask 100) = UB).
Proof.
  assert (A : wf_collection coll_over) by (apply wf_collectionb_ok; vm_compute; reflexivity).
  assert (B : sizes_ok2 coll_over) by (split; discriminate).
  split; [exact A|]. split; [exact B|]. split; [exists 1; cbn; auto|].
  split; [exists 3; split; [cbn; lia|]; intros H; vm_compute in H; repeat (destruct H as [H|H]; try discriminate H); exact H|].
  split; [exact query_ab|]. split; [exact over_answer|]. split.
  { apply (C08_reportable coll_over over_results A) with (P := conj_by coll_over (found coll_over [98%N]) [[97%N]]); [| |apply (over_answer 15)|exact B].
    - vm_compute. repeat constructor.
    - cbn. unfold MAX_K. lia.
    - lia. }
  split.
  { split; [now left|]. split; [reflexivity|]. split; [exists [97%N]; split; [now left|vm_compute; auto]|].
    exists 15, [1; 3]%N. split; [exists 15; split; reflexivity|]. split; [intros t [<-|[]] _; now left|].
    apply Forall_forall. intros r Hr. unfold over_results in Hr. apply in_map_iff in Hr. destruct Hr as (i & <- & Hi). apply in_seq in Hi. cbn. lia. }
  vm_compute. repeat split.
Qed.
Print Assumptions C38_type2_overrun_refuted.

(** ** Lost completions (F23) *)
(** 17 completions: "a b" and those of 1 to 16 words "b". The dictionary of completions holds "a b" only. The query "b a" has
    one result, "a b", which can be reported; but with an index of type 2 the search has to decode the others first. *)
Definition coll_stumble : collection :=
  {| terms := [[97]; [98]]%N; comps := [1; 2]%N :: map (fun i => repeat 2%N (S i)) (seq 0 16); docs := 16 :: seq 0 16; universe := 17 |}.
Definition stumble_result : list (nat * list N) := [(16, [97; 32; 98]%N)].
Lemma query_ba : query_split [98; 32; 97]%N [[98]%N] [97]%N.
Proof.
  exists [98; 32]%N. split; [reflexivity|]. split; [repeat constructor; discriminate|].
  apply (words_word [98%N] [] []); [discriminate|repeat constructor; discriminate|constructor].
Qed.
Lemma stumble_answer : topk_answer coll_stumble (conj_by coll_stumble (found coll_stumble [97%N]) [[98%N]]) 1 stumble_result.
Proof.
  split; [repeat constructor|]. split; [cbn; lia|]. split.
  - intros d s [E|[]]. injection E as <- <-. exists [1; 2]%N. split; [exists 0; split; reflexivity|]. split; [|reflexivity].
    split; [intros t [<-|[]] _; right; now left|]. exists [97%N]. split; [now left|]. split; [split; [now exists []|intros _; auto]|right; vm_compute; auto].
  - intros d ids (i & Hd & Hc) (_ & w & Hw & (Hp & _) & _). left. destruct i as [|i]; [injection Hd as <-; injection Hc as <-; now left|exfalso].
    cbn [comps coll_stumble nth_error] in Hc. rewrite nth_error_map in Hc. destruct (nth_error (seq 0 16) i) as [j|]; [|discriminate].
    injection Hc as <-. unfold words_of in Hw. apply in_map_iff in Hw. destruct Hw as (y & <- & Hy).
    change (2%N :: repeat 2%N j) with (repeat 2%N (S j)) in Hy. apply repeat_spec in Hy. subst y. destruct Hp as [t Ht]. discriminate.
Qed.
Theorem C38_type2_stumble_refuted :
  wf_collection coll_stumble /\ sizes_ok coll_stumble /\ some_kept_doc_positive coll_stumble /\ some_doc_positive coll_stumble /\
  some_term_not_in_doc0 coll_stumble /\ query_split [98; 32; 97]%N [[98%N]] [97%N] /\
  topk_answer coll_stumble (conj_by coll_stumble (found coll_stumble [97%N]) [[98%N]]) 1 stumble_result /\
  reportable2 coll_stumble stumble_result /\ stumbles coll_stumble [[98%N]] [97%N] 1 stumble_result /\
  (let ask k q := [{| rq_conj := true; rq_k := k; rq_text := q |}] in
   run1 coll_stumble (ask 1 [98; 32; 97]%N) = Ok [stumble_result] /\ run3 coll_stumble (ask 1 [98; 32; 97]%N) = Ok [stumble_result] /\
   run2 coll_stumble (ask 1 [98; 32; 97]%N) = UB /\ run2 coll_stumble (ask 1 [97; 32; 98]%N) = Ok [stumble_result] /\
   (** Reporting a lost completion: the query "b" has all 17 as results. *)
   run1 coll_stumble (ask 1 [98]%N) = Ok [[(0, [98]%N)]] /\ run2 coll_stumble (ask 1 [98]%N) = UB /\ run3 coll_stumble (ask 1 [98]%N) = UB).
Proof.
  assert (A : wf_collection coll_stumble) by (apply wf_collectionb_ok; vm_compute; reflexivity).
  assert (B : sizes_ok coll_stumble) by discriminate.
  split; [exact A|]. split; [exact B|]. split; [exists 16; split; [now left|lia]|]. split; [exists 16; split; [now left|lia]|].
  split; [exists 1; split; [cbn; lia|]; intros H; vm_compute in H; repeat (destruct H as [H|H]; try discriminate H); exact H|].
  split; [exact query_ba|]. split; [exact stumble_answer|]. split.
  { split.
    - refine (proj1 (proj1 (C08_reportable coll_stumble stumble_result A _ _) (conj_by coll_stumble (found coll_stumble [97%N]) [[98%N]]) _) B);
        [vm_compute; repeat constructor|cbn; unfold MAX_K; lia|apply stumble_answer].
    - intros d s [E|[]]. injection E as <- _. now left. }
  split.
  { split; [exists [98%N]; split; [now left|vm_compute; auto]|].
    split; [exists [97%N]; split; [now left|split; [split; [now exists []|intros _; auto]|right; vm_compute; auto]]|].
    exists 0, [2%N]. split; [exists 1; split; reflexivity|]. split; [intros t [<-|[]] _; now left|].
    split; [intros [X|[]]; discriminate|]. right. right. exists (16, [97; 32; 98]%N). split; [now left|cbn; lia]. }
  vm_compute. repeat split.
Qed.
Print Assumptions C38_type2_stumble_refuted.

(** Conjunctive search with an index of type 4 takes k = 0 for no limit only if the first candidate is a result: otherwise it
    stops without any. *)
Theorem C05_type4_k0_refuted :
  let ask k := [{| rq_conj := true; rq_k := k; rq_text := [99]%N |}] in
  run1 coll_over (ask 0) = Ok [[(15, [97; 32; 99]%N)]] /\ run4 1000 coll_over (ask 1) = Ok [[(15, [97; 32; 99]%N)]] /\
  run4 1000 coll_over (ask 0) = Ok [[]].
Proof. vm_compute. repeat split. Qed.
Print Assumptions C05_type4_k0_refuted.

(** Non-vacuity for type 4: the blocks {a}, {b}, {bc}, {de} and the query "b", which leads to the terms 2 and 3. Block 1 is
    searched, block 2 is not (F6). *)
Definition b_results : list (nat * list N) := [(1, [98; 32; 100; 101]%N); (3, [97; 32; 98]%N); (7, [98]%N)].
Lemma sought_b t : sought coll_ex (found coll_ex [98%N]) t <-> t = 2 \/ t = 3.
Proof.
  split.
  - intros [H1 [[[s Hs] _] _]]. cbn in H1. destruct t as [|[|[|[|[|t]]]]]; cbn in Hs; try discriminate; lia.
  - intros [->| ->]; (split; [cbn; lia|]; split; [split; [now eexists|intros E; discriminate]|right; vm_compute; auto]).
Qed.
Lemma in_block4 i t : in_block [1; 2; 3; 4] i t <-> i < 4 /\ t = i + 1.
Proof.
  unfold in_block. cbn [length]. split.
  - intros (H1 & H2 & H3). split; [exact H1|]. destruct i as [|[|[|[|i]]]]; cbn in *; lia.
  - intros (H1 & ->). split; [exact H1|]. destruct i as [|[|[|[|i]]]]; cbn in *; lia.
Qed.
Lemma searched_b i : searched coll_ex [1; 2; 3; 4] (found coll_ex [98%N]) i <-> i = 1.
Proof.
  split.
  - intros (t & H1 & H2 & H3). apply sought_b in H1. apply in_block4 in H2. destruct H3 as [(t' & H3 & H4)|H3].
    + apply sought_b in H4. lia.
    + pose proof (H3 2 ltac:(apply sought_b; lia)). pose proof (H3 3 ltac:(apply sought_b; lia)). lia.
  - intros ->. exists 2. split; [apply sought_b; lia|]. split; [apply in_block4; lia|]. left. exists 3. split; [lia|apply sought_b; lia].
Qed.
Lemma shown_b d : shown coll_ex [1; 2; 3; 4] (found coll_ex [98%N]) 1 d <-> In d [1; 3; 7].
Proof.
  split.
  - intros (t & _ & H1 & H2). apply in_block4 in H1. destruct H1 as [_ ->]. exact H2.
  - intros H. exists 2. split; [apply sought_b; lia|]. split; [apply in_block4; lia|exact H].
Qed.
Example blocked_nonvacuous :
  good coll_ex /\ blocks_of (length (terms coll_ex)) [1; 2; 3; 4] /\
  (exists x, ac4_build list_bcontainers 0 (files_of coll_ex) = Ok x /\ bi_bounds list_bcontainers (a4_inverted x) = [1; 2; 3; 4]) /\
  blocked_answer coll_ex [1; 2; 3; 4] [] (found coll_ex [98%N]) 10 b_results /\ run4 0 coll_ex [conj10 [98]%N] = Ok [b_results] /\
  searched coll_ex [1; 2; 3; 4] (found coll_ex [98%N]) 1 /\ shown coll_ex [1; 2; 3; 4] (found coll_ex [98%N]) 1 7 /\
  ~ searched coll_ex [1; 2; 3; 4] (found coll_ex [98%N]) 2.
Proof.
  split; [exact coll_ex_good|]. split; [split; [repeat constructor|intros t Ht; exists (t - 1); apply in_block4; cbn in Ht; lia]|].
  split; [eexists; split; vm_compute; reflexivity|]. split; [|split; [vm_compute; reflexivity|]].
  - split.
    + exists [1; 3; 7]. split; [|split; [reflexivity|discriminate]]. split; [|intros (t & [] & _)].
      intros _. split; [repeat constructor|]. intros d. exists (if in_dec Nat.eq_dec d [1; 3; 7] then [1] else []).
      destruct (in_dec Nat.eq_dec d [1; 3; 7]) as [Hd|Hd].
      * split; [repeat constructor; intros []|]. split; [|destruct Hd as [<-|[<-|[<-|[]]]]; reflexivity].
        intros i. rewrite searched_b. split; [intros [<-|[]]; split; [reflexivity|now apply shown_b]|intros [-> _]; now left].
      * split; [constructor|]. split; [|now apply (count_occ_not_In Nat.eq_dec)].
        intros i. rewrite searched_b. split; [intros []|]. intros [-> H]. apply Hd. now apply shown_b.
    + intros d s [E|[E|[E|[]]]]; injection E as <- <-.
      * exists [2; 4]%N. split; [exists 3; split; reflexivity|reflexivity].
      * exists [1; 2]%N. split; [exists 0; split; reflexivity|reflexivity].
      * exists [2]%N. split; [exists 2; split; reflexivity|reflexivity].
  - split; [now apply searched_b|]. split; [apply shown_b; cbn; auto|]. intros H. apply searched_b in H. discriminate.
Qed.
