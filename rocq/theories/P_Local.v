(** Answers of two collections with the same matches. *)
From Coq Require Import Sorted Lia.
From Verif Require Import Base S_Order S_Vocab S_Parse M_Parse P_Parse M_Containers S_Containers M_Auto M_Auto1 S_Collection S_Index S_Room S_Found M_Auto2 S_Index2 S_Build M_Blocked S_Blocked.
From Verif Require Import P_Order P_Kept P_ParseFc P_Collection P_Auto1 P_Auto23 P_Auto4 P_Exact S_Meta P_Meta P_Again S_Local.
Local Open Scope nat_scope.

(** The completion with doc id [d] and words [ws] satisfies [P]. *)
Definition meets (c : collection) (P : list (list N) -> Prop) (d : nat) (ws : list (list N)) : Prop :=
  exists ids, is_doc c d ids /\ words_of c ids = ws /\ P ws.

Lemma topk_other c c' (P P' : list (list N) -> Prop) n out : (forall d ws, meets c P d ws <-> meets c' P' d ws) -> topk_answer c P n out -> topk_answer c' P' n out.
Proof.
  intros H (A & B & C & D). split; [exact A|]. split; [exact B|]. split.
  - intros d s Hin. destruct (C d s Hin) as (ids & Hd & HP & ->). destruct (proj1 (H d (words_of c ids))) as (ids' & Hd' & E & HP'); [now exists ids|].
    exists ids'. split; [exact Hd'|]. rewrite E. split; [exact HP'|]. unfold text. now rewrite E.
  - intros d ids' Hd' HP'. destruct (proj2 (H d (words_of c' ids'))) as (ids & Hd & E & HP); [now exists ids'|].
    rewrite <- E in HP. specialize (D d ids Hd HP). unfold text in *. now rewrite E in D.
Qed.
Lemma topk_same c c' (P P' : list (list N) -> Prop) k out out' : wf_collection c -> wf_collection c' -> (forall d ws, meets c P d ws <-> meets c' P' d ws) ->
  topk_answer c P (limit c k) out -> topk_answer c' P' (limit c' k) out' -> out = out'.
Proof.
  intros Hwf Hwf' H A A'. unfold limit in *. destruct (k =? 0).
  - set (n := Nat.max (length (comps c)) (length (comps c'))). apply (answer_unique c' Hwf' P' n).
    + apply (topk_other c c' P); [exact H|]. apply topk_all; [exact Hwf|exact A|lia].
    + apply topk_all; [exact Hwf'|exact A'|lia].
  - apply (answer_unique c' Hwf' P' k); [|exact A']. now apply (topk_other c c' P).
Qed.

Section Matches.
  Context (c : collection) (Hwf : wf_collection c) (r : request) (ts : list (list N)) (last : list N) (Hq : query_split (rq_text r) ts last).
  Lemma meets_ext (P Q : list (list N) -> Prop) d ws : (forall ids, In ids (comps c) -> (P (words_of c ids) <-> Q (words_of c ids))) -> (meets c P d ws <-> meets c Q d ws).
  Proof using Type. intros H. split; intros (ids & Hd & <- & HP); exists ids; (split; [exact Hd|]); (split; [reflexivity|]); apply H; auto; eapply is_doc_in; eauto. Qed.
  Lemma meets_matches d ws : meets c (if rq_conj r then conj_match c ts last else prefix_match ts last) d ws <-> matches c r d ws.
  Proof using Hq.
    split.
    - intros (ids & Hd & E & HP). exists ids, ts, last. split; [exact Hd|]. split; [exact E|]. split; [exact Hq|]. now destruct (rq_conj r).
    - intros (ids & ts' & last' & Hd & E & Hq' & HP). destruct (query_split_det _ _ _ _ _ Hq Hq') as [<- <-]. exists ids. split; [exact Hd|]. split; [exact E|]. now destruct (rq_conj r).
  Qed.
  Lemma meets1 d ws : sizes_ok c -> no_first_term c r -> (meets c (found_for1 c r ts last) d ws <-> matches c r d ws).
  Proof using Hq Hwf.
    intros Hz Hn. rewrite <- meets_matches. apply meets_ext. intros ids Hin. specialize (Hn ts last Hq). unfold found_for1. destruct (rq_conj r).
    - now apply conj_by_found.
    - now apply prefix_by_found.
  Qed.
  Lemma meets2 d ws : sizes_ok2 c -> no_first_term c r -> no_first_completion c r -> (meets c (found_for2 c r ts last) d ws <-> matches c r d ws).
  Proof using Hq Hwf.
    intros Hz Hn Hc. rewrite <- meets_matches. apply meets_ext. intros ids Hin. specialize (Hn ts last Hq). unfold found_for2, no_first_completion in *. destruct (rq_conj r).
    - apply conj_by_found; auto. exact (proj1 Hz).
    - apply prefix_found_match; auto.
  Qed.
End Matches.

Section Two.
  Context (c c' : collection) (Hwf : wf_collection c) (Hwf' : wf_collection c').
  Lemma local_out1 r ts last out out' : query_split (rq_text r) ts last -> sizes_ok c -> sizes_ok c' -> same_matches r c c' -> no_first_term c r -> no_first_term c' r ->
    topk_answer c (found_for1 c r ts last) (limit c (rq_k r)) out -> topk_answer c' (found_for1 c' r ts last) (limit c' (rq_k r)) out' -> out = out'.
  Proof using Hwf Hwf'.
    intros Hq Hz Hz' Hm Hn Hn'. apply topk_same; [exact Hwf|exact Hwf'|]. intros d ws. rewrite meets1, meets1; auto.
  Qed.
  Lemma local_out2 r ts last out out' : query_split (rq_text r) ts last -> sizes_ok2 c -> sizes_ok2 c' -> same_matches r c c' -> no_first_term c r -> no_first_term c' r ->
    no_first_completion c r -> no_first_completion c' r ->
    topk_answer c (found_for2 c r ts last) (limit c (rq_k r)) out -> topk_answer c' (found_for2 c' r ts last) (limit c' (rq_k r)) out' -> out = out'.
  Proof using Hwf Hwf'.
    intros Hq Hz Hz' Hm Hn Hn' Hc Hc'. apply topk_same; [exact Hwf|exact Hwf'|]. intros d ws. rewrite meets2, meets2; auto.
  Qed.
End Two.

Lemma local1 K c c' : containers_ok K -> wf_collection c -> wf_collection c' -> sizes_ok c -> sizes_ok c' ->
  some_doc_positive c -> some_term_not_in_doc0 c -> some_doc_positive c' -> some_term_not_in_doc0 c' ->
  exists x x', ac1_build K (files_of c) = Ok x /\ ac1_build K (files_of c') = Ok x' /\
    forall fuel r s t s' t' out out', query_fuel c < fuel -> query_fuel c' < fuel -> state1_ok s -> state1_ok t ->
    same_matches r c c' -> no_first_term c r -> no_first_term c' r ->
    ac1_request K x fuel r s = Ok s' -> pool_results (s1_pool s') = Ok out ->
    ac1_request K x' fuel r t = Ok t' -> pool_results (s1_pool t') = Ok out' -> out = out'.
Proof.
  intros HK Hwf Hwf' Hz Hz' Hp H0 Hp' H0'. destruct (ask1 K HK c Hwf Hp H0) as (x & E & H). destruct (ask1 K HK c' Hwf' Hp' H0') as (x' & E' & H').
  exists x, x'. split; [exact E|]. split; [exact E'|]. intros fuel r s t s' t' out out' Hf Hf' Hs Ht Hm Hn Hn' E1 E2 E3 E4.
  destruct (query_split_exists_unique (rq_text r)) as (ts & last & Hq & _).
  destruct (H fuel r ts last s Hf Hq Hs) as (o & A & G). destruct (H' fuel r ts last t Hf' Hq Ht) as (o' & A' & G').
  rewrite (gives_results res1 _ _ _ _ _ G E1 E2), (gives_results res1 _ _ _ _ _ G' E3 E4). exact (local_out1 c c' Hwf Hwf' r ts last o o' Hq Hz Hz' Hm Hn Hn' A A').
Qed.
Lemma local2 K c c' : containers_ok K -> wf_collection c -> wf_collection c' -> sizes_ok2 c -> sizes_ok2 c' ->
  some_kept_doc_positive c -> some_term_not_in_doc0 c -> some_kept_doc_positive c' -> some_term_not_in_doc0 c' ->
  exists x x', ac2_build K (files_of c) = Ok x /\ ac2_build K (files_of c') = Ok x' /\
    forall fuel r s t s' t' out out', query_fuel c < fuel -> query_fuel c' < fuel -> state2_ok s -> state2_ok t ->
    same_matches r c c' -> no_first_term c r -> no_first_term c' r -> no_first_completion c r -> no_first_completion c' r ->
    ac2_request K x fuel r s = Ok s' -> pool_results (s2_pool s') = Ok out ->
    ac2_request K x' fuel r t = Ok t' -> pool_results (s2_pool t') = Ok out' -> out = out'.
Proof.
  intros HK Hwf Hwf' Hz Hz' Hp H0 Hp' H0'. destruct (ask2 K HK c Hwf Hp H0) as (x & E & H). destruct (ask2 K HK c' Hwf' Hp' H0') as (x' & E' & H').
  exists x, x'. split; [exact E|]. split; [exact E'|]. intros fuel r s t s' t' out out' Hf Hf' Hs Ht Hm Hn Hn' Hc Hc' E1 E2 E3 E4.
  destruct (query_split_exists_unique (rq_text r)) as (ts & last & Hq & _).
  destruct (H fuel r ts last s Hf Hq Hs) as (o & A & G). destruct (H' fuel r ts last t Hf' Hq Ht) as (o' & A' & G').
  rewrite (gives_results res2 _ _ _ _ _ G E1 E2), (gives_results res2 _ _ _ _ _ G' E3 E4). exact (local_out2 c c' Hwf Hwf' r ts last o o' Hq Hz Hz' Hm Hn Hn' Hc Hc' A A').
Qed.
Lemma local3 K c c' : containers_ok K -> wf_collection c -> wf_collection c' -> sizes_ok2 c -> sizes_ok2 c' ->
  some_kept_doc_positive c -> some_kept_doc_positive c' ->
  exists x x', ac3_build K (files_of c) = Ok x /\ ac3_build K (files_of c') = Ok x' /\
    forall fuel r s t s' t' out out', query_fuel c < fuel -> query_fuel c' < fuel -> state2_ok s -> state2_ok t ->
    same_matches r c c' -> no_first_term c r -> no_first_term c' r -> no_first_completion c r -> no_first_completion c' r ->
    ac3_request K x fuel r s = Ok s' -> pool_results (s2_pool s') = Ok out ->
    ac3_request K x' fuel r t = Ok t' -> pool_results (s2_pool t') = Ok out' -> out = out'.
Proof.
  intros HK Hwf Hwf' Hz Hz' Hp Hp'. destruct (ask3 K HK c Hwf Hp) as (x & E & H). destruct (ask3 K HK c' Hwf' Hp') as (x' & E' & H').
  exists x, x'. split; [exact E|]. split; [exact E'|]. intros fuel r s t s' t' out out' Hf Hf' Hs Ht Hm Hn Hn' Hc Hc' E1 E2 E3 E4.
  destruct (query_split_exists_unique (rq_text r)) as (ts & last & Hq & _).
  destruct (H fuel r ts last s Hf Hq Hs) as (o & A & G). destruct (H' fuel r ts last t Hf' Hq Ht) as (o' & A' & G').
  rewrite (gives_results res2 _ _ _ _ _ G E1 E2), (gives_results res2 _ _ _ _ _ G' E3 E4). exact (local_out2 c c' Hwf Hwf' r ts last o o' Hq Hz Hz' Hm Hn Hn' Hc Hc' A A').
Qed.
Lemma local4 (K : bcontainers) c c' m m' : bcontainers_ok K -> wf_collection c -> wf_collection c' -> sizes_ok2 c -> sizes_ok2 c' ->
  few_postings c -> few_postings c' -> some_kept_doc_positive c -> some_kept_doc_positive c' ->
  exists x x', ac4_build K m (files_of c) = Ok x /\ ac4_build K m' (files_of c') = Ok x' /\
    forall fuel r s t s' t' out out', query_fuel c < fuel -> query_fuel c' < fuel -> state2_ok s -> state2_ok t ->
    same_matches r c c' -> no_first_term c r -> no_first_term c' r -> no_first_completion c r -> no_first_completion c' r ->
    (rq_conj r = true -> 1 <= rq_k r /\ forall ts last, query_split (rq_text r) ts last ->
      query_exact_by c (found c last) (bi_bounds K (a4_inverted x)) ts /\ query_exact_by c' (found c' last) (bi_bounds K (a4_inverted x')) ts) ->
    ac4_request K x fuel r s = Ok s' -> pool_results (s2_pool s') = Ok out ->
    ac4_request K x' fuel r t = Ok t' -> pool_results (s2_pool t') = Ok out' -> out = out'.
Proof.
  intros HK Hwf Hwf' Hz Hz' Hfew Hfew' Hp Hp'. destruct (ask4_texts K HK c Hwf Hfew m Hp) as (x & E & H). destruct (ask4_texts K HK c' Hwf' Hfew' m' Hp') as (x' & E' & H').
  exists x, x'. split; [exact E|]. split; [exact E'|]. intros fuel r s t s' t' out out' Hf Hf' Hs Ht Hm Hn Hn' Hc Hc' Hx E1 E2 E3 E4.
  destruct (query_split_exists_unique (rq_text r)) as (ts & last & Hq & _).
  destruct (proj2 (H fuel r Hf) ltac:(intros Hj; destruct (Hx Hj) as [Hk Hy]; split; [exact Hk|]; intros ts1 last1 Hq1; now apply Hy) ts last s Hq Hs) as (o & A & G).
  destruct (proj2 (H' fuel r Hf') ltac:(intros Hj; destruct (Hx Hj) as [Hk Hy]; split; [exact Hk|]; intros ts1 last1 Hq1; now apply Hy) ts last t Hq Ht) as (o' & A' & G').
  rewrite (gives_results res2 _ _ _ _ _ G E1 E2), (gives_results res2 _ _ _ _ _ G' E3 E4). exact (local_out2 c c' Hwf Hwf' r ts last o o' Hq Hz Hz' Hm Hn Hn' Hc Hc' A A').
Qed.

(** Deciding [same_matches] for examples. *)
Fixpoint prefixb (p s : list N) : bool :=
  match p, s with
  | [], _ => true
  | x :: p', y :: s' => (x =? y)%N && prefixb p' s'
  | _, _ => false
  end.
Lemma prefixb_ok p : forall s, prefixb p s = true <-> is_prefix p s.
Proof.
  induction p as [|x p IH]; intros [|y s]; cbn [prefixb].
  - split; [intros _; now exists []|reflexivity].
  - split; [intros _; now exists (y :: s)|reflexivity].
  - split; [discriminate|intros (t & E); discriminate].
  - rewrite andb_true_iff, N.eqb_eq, IH. split; [intros (-> & t & ->); now exists t|intros (t & E)]. cbn in E. injection E as <- ->. split; [reflexivity|now exists t].
Qed.
Definition inb (w : list N) (ws : list (list N)) : bool := if in_dec (list_eq_dec N.eq_dec) w ws then true else false.
Lemma inb_ok w ws : inb w ws = true <-> In w ws.
Proof. unfold inb. destruct (in_dec _ w ws); split; auto; discriminate. Qed.
Definition matchb (c : collection) (conj : bool) (ts : list (list N)) (last : list N) (ws : list (list N)) : bool :=
  if conj then forallb (fun t => negb (inb t (terms c)) || inb t ws) ts && existsb (prefixb last) ws
  else if list_eq_dec (list_eq_dec N.eq_dec) (firstn (length ts) ws) ts then match skipn (length ts) ws with [] => false | w :: _ => prefixb last w end else false.
Lemma matchb_ok c conj ts last ws : matchb c conj ts last ws = true <-> if conj then conj_match c ts last ws else prefix_match ts last ws.
Proof.
  unfold matchb. destruct conj.
  - rewrite andb_true_iff, forallb_forall, existsb_exists. unfold conj_match. split.
    + intros [A (w & Hw & B)]. split; [|exists w; split; [exact Hw|now apply prefixb_ok]]. intros t Ht Hi. specialize (A t Ht). apply orb_true_iff in A.
      destruct A as [A|A]; [|now apply inb_ok]. apply negb_true_iff in A. apply inb_ok in Hi. congruence.
    + intros [A (w & Hw & B)]. split; [|exists w; split; [exact Hw|now apply prefixb_ok]]. intros t Ht. apply orb_true_iff. destruct (inb t (terms c)) eqn:E; [right|now left].
      apply inb_ok, A; [exact Ht|now apply inb_ok].
  - destruct (list_eq_dec _ (firstn (length ts) ws) ts) as [E|E].
    + split.
      * intros H. destruct (skipn (length ts) ws) as [|w rest] eqn:X; [discriminate|]. exists w, rest. split; [|now apply prefixb_ok]. rewrite <- (firstn_skipn (length ts) ws), E, X. reflexivity.
      * intros (w & rest & -> & H). rewrite skipn_app, skipn_all, Nat.sub_diag. cbn. now apply prefixb_ok.
    + split; [discriminate|]. intros (w & rest & -> & _). exfalso. apply E. rewrite firstn_app, Nat.sub_diag, firstn_all. cbn. apply app_nil_r.
Qed.
Definition matchesl (c : collection) (conj : bool) (ts : list (list N)) (last : list N) : list (nat * list (list N)) :=
  filter (fun p => matchb c conj ts last (snd p)) (combine (docs c) (map (words_of c) (comps c))).
Lemma nth_combine {A B} (l : list A) (m : list B) i a b : nth_error l i = Some a -> nth_error m i = Some b -> In (a, b) (combine l m).
Proof.
  revert m i. induction l as [|x l IH]; intros [|y m] [|i]; cbn; try discriminate.
  - intros H1 H2. left. congruence.
  - intros H1 H2. right. eauto.
Qed.
Lemma combine_nth_error {A B} (l : list A) (m : list B) a b : In (a, b) (combine l m) -> exists i, nth_error l i = Some a /\ nth_error m i = Some b.
Proof.
  revert m. induction l as [|x l IH]; intros [|y m]; cbn; try tauto. intros [E|H]; [exists 0; cbn; split; congruence|].
  destruct (IH m H) as (i & H1 & H2). now exists (S i).
Qed.
Lemma matchesl_ok c r ts last d ws : query_split (rq_text r) ts last -> (In (d, ws) (matchesl c (rq_conj r) ts last) <-> matches c r d ws).
Proof.
  intros Hq. unfold matchesl. rewrite filter_In. cbn [snd]. rewrite matchb_ok. split.
  - intros [H Hm]. apply combine_nth_error in H. destruct H as (i & H1 & H2). rewrite nth_error_map in H2. destruct (nth_error (comps c) i) as [ids|] eqn:E; [|discriminate].
    injection H2 as <-. exists ids, ts, last. split; [now exists i|]. auto.
  - intros (ids & ts' & last' & (i & H1 & H2) & <- & Hq' & Hm). destruct (query_split_det _ _ _ _ _ Hq Hq') as [<- <-]. split; [|exact Hm].
    apply (nth_combine _ _ i); [exact H1|]. now apply map_nth_error.
Qed.
Lemma same_matchesl r c c' ts last : query_split (rq_text r) ts last -> matchesl c (rq_conj r) ts last = matchesl c' (rq_conj r) ts last -> same_matches r c c'.
Proof. intros Hq E d ws. rewrite <- (matchesl_ok c r ts last d ws Hq), <- (matchesl_ok c' r ts last d ws Hq), E. reflexivity. Qed.
