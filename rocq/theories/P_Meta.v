(** Answers to related requests. *)
From Coq Require Import Sorted Lia.
From Verif Require Import Base S_Order S_Vocab S_Parse M_Parse P_Parse M_Containers S_Containers M_Auto M_Auto1 S_Collection S_Index S_Room S_Found M_Auto2 S_Index2 S_Build M_Blocked S_Blocked.
From Verif Require Import P_Order P_Kept P_ParseFc P_Collection P_Pool P_Auto1 P_Auto2 P_Auto3 P_Auto23 P_BlockConj P_Auto4 P_Core2 P_Exact P_Rearr S_TopK S_Meta.
Local Open Scope nat_scope.

(** ** The first k results *)
Lemma firstn_in {A} (l : list A) k x : In x (firstn k l) -> In x l.
Proof. intros H. rewrite <- (firstn_skipn k l). apply in_or_app. now left. Qed.
Lemma firstn_lt_all {A} (l : list A) k : length (firstn k l) < k -> firstn k l = l.
Proof. intros H. apply firstn_all2. rewrite firstn_length in H. lia. Qed.
Lemma sorted_split (l : list nat) k x : StronglySorted lt l -> In x (skipn k l) -> Forall (fun y => y < x) (firstn k l).
Proof.
  revert k. induction l as [|a l IH]; intros [|k] H Hx; cbn in *; try constructor; try contradiction.
  - apply StronglySorted_inv in H as [_ H]. rewrite Forall_forall in H. apply H. rewrite <- (firstn_skipn k l). apply in_or_app. now right.
  - apply IH; [now apply StronglySorted_inv in H|exact Hx].
Qed.

Section First.
  Context (c : collection) (Hwf : wf_collection c).

  Lemma topk_firstn P n k out : topk_answer c P n out -> k <= n -> topk_answer c P k (firstn k out).
  Proof.
    intros (A & B & C & D) Hk. split; [|split; [|split]].
    - rewrite <- firstn_map. clear -A. revert k. induction A as [|x l H IH Hx]; intros [|k]; cbn; constructor; auto.
      rewrite Forall_forall in *. intros y Hy. apply Hx. now apply firstn_in in Hy.
    - rewrite firstn_length. lia.
    - intros d s Hd. apply C. now apply firstn_in in Hd.
    - intros d ids Hd HP. destruct (D d ids Hd HP) as [H|[H1 H2]].
      + rewrite <- (firstn_skipn k out) in H. apply in_app_or in H. destruct H as [H|H]; [now left|right]. split.
        * rewrite firstn_length. apply Nat.min_l. destruct (Nat.le_gt_cases k (length out)) as [|L]; [assumption|]. rewrite skipn_all2 in H by lia. destruct H.
        * assert (Hs : In d (skipn k (map fst out))) by (rewrite skipn_map; now apply (in_map fst) in H).
          pose proof (sorted_split _ k d A Hs) as F. rewrite firstn_map in F. rewrite Forall_map in F. exact F.
      + right. split; [rewrite firstn_length; lia|]. rewrite Forall_forall in *. intros r Hr. apply H2. now apply firstn_in in Hr.
  Qed.
  Lemma topk_all P k out : topk_answer c P (length (comps c)) out -> length (comps c) <= k -> topk_answer c P k out.
  Proof.
    intros (A & B & C & D) Hk. split; [exact A|]. split; [lia|]. split; [exact C|]. intros d ids Hd HP. left.
    destruct (D d ids Hd HP) as [H|[H1 H2]]; [exact H|exfalso].
    assert (Hn : NoDup (d :: map fst out)).
    { constructor; [|clear -A; induction A as [|x l H IH Hx]; constructor; [|exact IH]; rewrite Forall_forall in Hx; intros Hi; specialize (Hx x Hi); lia].
      intros Hi. apply in_map_iff in Hi. destruct Hi as (r & <- & Hr). rewrite Forall_forall in H2. specialize (H2 r Hr). lia. }
    assert (Hi : incl (d :: map fst out) (docs c)).
    { intros y [<-|Hy].
      - destruct Hd as (i & E & _). now apply nth_error_In in E.
      - apply in_map_iff in Hy. destruct Hy as ([y' s] & <- & Hr). destruct (C y' s Hr) as (ids' & (i & E & _) & _). now apply nth_error_In in E. }
    pose proof (NoDup_incl_length Hn Hi) as L. cbn [length] in L. rewrite map_length, (wf_docs_len c Hwf) in L. lia.
  Qed.
  Lemma topk_fewer P k k' out : topk_answer c P (limit c k') out -> 1 <= k -> k <= k' \/ k' = 0 -> topk_answer c P (limit c k) (firstn k out).
  Proof.
    intros H Hk Hk'. rewrite (limit_id c k Hk). destruct (Nat.eq_dec k' 0) as [->|Hn].
    - unfold limit in H. cbn in H. destruct (Nat.le_gt_cases k (length (comps c))) as [L|L]; [now apply (topk_firstn _ _ _ _ H)|].
      rewrite firstn_all2 by (destruct H as (_ & H & _); lia). apply topk_all; [exact H|lia].
    - rewrite limit_id in H by lia. apply (topk_firstn _ _ _ _ H). lia.
  Qed.

  Lemma room_firstn k : forall o out, has_room c o out -> has_room c o (firstn k out).
  Proof. induction k as [|k IH]; intros o [|(d, s) out] H; cbn in *; auto. destruct H as [A B]. split; auto. Qed.
  Lemma reportable_firstn k out : reportable c out -> reportable c (firstn k out).
  Proof.
    intros (A & B & C). split; [rewrite firstn_length; lia|]. split; [now apply room_firstn|].
    intros d s ids x Hd. apply (C d s ids x). now apply firstn_in in Hd.
  Qed.
  Lemma reportable2_firstn k out : reportable2 c out -> reportable2 c (firstn k out).
  Proof. intros [A B]. split; [now apply reportable_firstn|]. intros d s Hd. apply (B d s). now apply firstn_in in Hd. Qed.
  Lemma overruns_fewer ts k k' out : 1 <= k -> k <= k' \/ k' = 0 -> overruns c ts k (firstn k out) -> overruns c ts k' out.
  Proof.
    intros Hk Hk' (A & B & C). assert (E : firstn k out = out) by (apply firstn_lt_all; lia). rewrite E in *. split; [lia|]. auto.
  Qed.
  Lemma stumbles_fewer ts last k k' out : 1 <= k -> k <= k' \/ k' = 0 -> stumbles c ts last k (firstn k out) -> stumbles c ts last k' out.
  Proof.
    intros Hk Hk' (A & B & d & ids & C1 & C2 & C3 & C4). split; [exact A|]. split; [exact B|]. exists d, ids. split; [exact C1|]. split; [exact C2|]. split; [exact C3|].
    destruct C4 as [C4|[C4|(r & Hr & C4)]]; [lia| |right; right; exists r; split; [now apply firstn_in in Hr|exact C4]].
    rewrite firstn_lt_all in C4 by exact C4. lia.
  Qed.
End First.

(** ** Requests that give a definite answer under a condition, and are undefined otherwise *)
Section Gives.
  Context {S : Type} (results : S -> res (list (nat * list N))).
  Definition gives (ok : Prop) (out : list (nat * list N)) (r : res S) : Prop :=
    (ok -> exists s', r = Ok s' /\ results s' = Ok out) /\ (~ ok -> r = UB).
  Lemma pair_dec (a b : nat * list N) : {a = b} + {a <> b}.
  Proof. decide equality; [apply (list_eq_dec N.eq_dec)|apply Nat.eq_dec]. Qed.
  Lemma results_dec (r : res (list (nat * list N))) out : r = Ok out \/ r <> Ok out.
  Proof.
    destruct r as [o| | |]; try (right; discriminate).
    destruct (list_eq_dec pair_dec o out) as [->|H]; [now left|right; congruence].
  Qed.
  Lemma gives_results ok out r s' out' : gives ok out r -> r = Ok s' -> results s' = Ok out' -> out' = out.
  Proof.
    intros [A B] E Er. destruct (results_dec (results s') out) as [H|H]; [congruence|exfalso].
    assert (~ ok) as Hn by (intros Ho; destruct (A Ho) as (s2 & E2 & R2); congruence). rewrite (B Hn) in E. discriminate.
  Qed.
  Lemma gives_mono (ok1 ok2 : Prop) out1 out2 r1 r2 s1 : (ok1 -> ok2) -> gives ok1 out1 r1 -> gives ok2 out2 r2 -> r1 = Ok s1 ->
    exists s2, r2 = Ok s2 /\ results s2 = Ok out2.
  Proof.
    intros Hi [A1 B1] [A2 B2] E. assert (Hnn : ~ ~ ok2) by (intros Hn; rewrite B1 in E by (intros H; auto); discriminate).
    destruct r2 as [s2| | |] eqn:E2; try (exfalso; apply Hnn; intros Ho; destruct (A2 Ho) as (s2 & X & _); discriminate).
    exists s2. split; [reflexivity|]. destruct (results_dec (results s2) out2) as [H|H]; [exact H|exfalso].
    apply Hnn. intros Ho. destruct (A2 Ho) as (s3 & X & Y). injection X as <-. contradiction.
  Qed.
End Gives.

Definition found_for1 (c : collection) (r : request) (ts : list (list N)) (last : list N) : list (list N) -> Prop :=
  if rq_conj r then conj_by c (found c last) ts else prefix_by c (found c last) ts.
Definition found_for2 (c : collection) (r : request) (ts : list (list N)) (last : list N) : list (list N) -> Prop :=
  if rq_conj r then conj_by c (found c last) ts else prefix_found c ts last.
Definition res1 (s : state1) := pool_results (s1_pool s).
Definition res2 (s : state2) := pool_results (s2_pool s).

Section Ask.
  Context (K : containers) (HK : containers_ok K) (c : collection) (Hwf : wf_collection c).

  Lemma ask1 : some_doc_positive c -> some_term_not_in_doc0 c -> exists x, ac1_build K (files_of c) = Ok x /\
    forall fuel r ts last s, query_fuel c < fuel -> query_split (rq_text r) ts last -> state1_ok s ->
    exists out, topk_answer c (found_for1 c r ts last) (limit c (rq_k r)) out /\ gives res1 (reportable c out) out (ac1_request K x fuel r s).
  Proof.
    intros Hp H0. destruct (auto1_exact K HK c Hwf Hp H0) as (x & E & H). exists x. split; [exact E|].
    intros fuel r ts last s Hf Hq Hs. destruct (H fuel (rq_k r) (rq_text r) ts last s Hf Hq Hs) as [A B]. unfold found_for1, ac1_request.
    destruct (rq_conj r); [destruct B as (o & B1 & B2 & B3)|destruct A as (o & B1 & B2 & B3)]; exists o; (split; [exact B1|]); (split; [|exact B3]);
      intros Ho; destruct (B2 Ho) as (s' & C1 & C2 & _); exists s'; auto.
  Qed.
  Lemma ub_stable {A} (r : res A) : ~ r <> UB -> r = UB.
  Proof. destruct r; auto; intros H; exfalso; apply H; discriminate. Qed.
  Definition over (r : request) (ts : list (list N)) (last : list N) (out : list (nat * list N)) : Prop :=
    rq_conj r = true /\ (overruns c ts (rq_k r) out \/ stumbles c ts last (rq_k r) out).
  Lemma ask2 : some_kept_doc_positive c -> some_term_not_in_doc0 c -> exists x, ac2_build K (files_of c) = Ok x /\
    forall fuel r ts last s, query_fuel c < fuel -> query_split (rq_text r) ts last -> state2_ok s ->
    exists out, topk_answer c (found_for2 c r ts last) (limit c (rq_k r)) out /\
      gives res2 (reportable2 c out /\ ~ over r ts last out) out (ac2_request K x fuel r s).
  Proof.
    intros Hp H0. destruct (auto2_exact K HK c Hwf Hp H0) as (x & E & H). exists x. split; [exact E|].
    intros fuel r ts last s Hf Hq Hs. destruct (H fuel (rq_k r) (rq_text r) ts last Hf Hq) as [A B]. unfold found_for2, ac2_request, over.
    destruct (rq_conj r); [destruct (B s Hs) as (o & B1 & B2 & B3)|destruct (A s Hs) as (o & B1 & B2 & B3)]; exists o; (split; [exact B1|]); split.
    - intros [Ho Hn]. destruct B2 as (s' & C1 & C2 & _); [exact Ho|intros X; apply Hn; auto|intros X; apply Hn; auto|]. exists s'; auto.
    - intros Hn. apply ub_stable. intros Hu. apply Hu, B3. left. intros Ho. apply Hn. split; [exact Ho|].
      intros [_ X]. apply Hu, B3. now right.
    - intros [Ho _]. destruct (B2 Ho) as (s' & C1 & C2 & _). exists s'. auto.
    - intros Hn. apply B3. intros Ho. apply Hn. split; [exact Ho|]. intros [X _]. discriminate.
  Qed.
  Lemma ask3 : some_kept_doc_positive c -> exists x, ac3_build K (files_of c) = Ok x /\
    forall fuel r ts last s, query_fuel c < fuel -> query_split (rq_text r) ts last -> state2_ok s ->
    exists out, topk_answer c (found_for2 c r ts last) (limit c (rq_k r)) out /\ gives res2 (reportable2 c out) out (ac3_request K x fuel r s).
  Proof.
    intros Hp. destruct (auto3_exact K HK c Hwf Hp) as (x & E & H). exists x. split; [exact E|].
    intros fuel r ts last s Hf Hq Hs. destruct (H fuel (rq_k r) (rq_text r) ts last Hf Hq) as [A B]. unfold found_for2, ac3_request.
    destruct (rq_conj r); [destruct (B s Hs) as (o & B1 & B2 & B3)|destruct (A s Hs) as (o & B1 & B2 & B3)]; exists o; (split; [exact B1|]); (split; [|exact B3]);
      intros Ho; destruct (B2 Ho) as (s' & C1 & C2 & _); exists s'; auto.
  Qed.
End Ask.

(** ** Fewer results *)
Section Fewer.
  Context (c : collection) (Hwf : wf_collection c).
  (** [r] asks for less than [r'], which may have no limit. *)
  Definition less (r r' : request) : Prop :=
    rq_conj r = rq_conj r' /\ rq_text r = rq_text r' /\ 1 <= rq_k r /\ (rq_k r <= rq_k r' \/ rq_k r' = 0).

  Lemma less_answer {S} (results : S -> res _) (ff : request -> list (list N) -> list N -> list (list N) -> Prop) (ok : request -> list (list N) -> list N -> list (nat * list N) -> Prop) (run : request -> S -> res S) (good : S -> Prop) :
    (forall r r' ts last, rq_conj r = rq_conj r' -> ff r ts last = ff r' ts last) ->
    (forall r r' ts last out, less r r' -> ok r' ts last out -> ok r ts last (firstn (rq_k r) out)) ->
    (forall r ts last s, query_split (rq_text r) ts last -> good s ->
       exists out, topk_answer c (ff r ts last) (limit c (rq_k r)) out /\ gives results (ok r ts last out) out (run r s)) ->
    forall r r' s t s' out', good s -> good t -> less r r' -> run r' s = Ok s' -> results s' = Ok out' ->
    exists t', run r t = Ok t' /\ results t' = Ok (firstn (rq_k r) out').
  Proof.
    intros Hff Hok H r r' s t s' out' Hs Ht Hl E Er. pose proof Hl as (H1 & H2 & H3 & H4).
    destruct (query_split_exists_unique (rq_text r)) as (ts & last & Hq & _).
    destruct (H r' ts last s ltac:(now rewrite <- H2) Hs) as (o' & A' & G'). destruct (H r ts last t Hq Ht) as (o & A & G).
    pose proof (gives_results results _ _ _ _ _ G' E Er) as ->. rewrite <- (Hff r r' ts last H1) in A'.
    pose proof (topk_fewer c Hwf _ _ _ _ A' H3 H4) as A2. pose proof (answer_unique c Hwf _ _ _ _ A A2) as ->.
    exact (gives_mono results _ _ _ _ _ _ s' (Hok r r' ts last o' Hl) G' G E).
  Qed.

  Lemma fewer1 K : containers_ok K -> some_doc_positive c -> some_term_not_in_doc0 c -> exists x, ac1_build K (files_of c) = Ok x /\
    forall fuel r r' s t s' out', query_fuel c < fuel -> state1_ok s -> state1_ok t -> less r r' ->
    ac1_request K x fuel r' s = Ok s' -> res1 s' = Ok out' ->
    exists t', ac1_request K x fuel r t = Ok t' /\ res1 t' = Ok (firstn (rq_k r) out').
  Proof.
    intros HK Hp H0. destruct (ask1 K HK c Hwf Hp H0) as (x & E & H). exists x. split; [exact E|]. intros fuel r r' s t s' out' Hf.
    apply (less_answer res1 (found_for1 c) (fun _ _ _ out => reportable c out) (ac1_request K x fuel) state1_ok).
    - intros r1 r2 ts last Ec. unfold found_for1. now rewrite Ec.
    - intros r1 r2 _ _ out _. apply reportable_firstn.
    - intros r1 ts last s1 Hq Hs1. now apply H.
  Qed.
  Lemma fewer2 K : containers_ok K -> some_kept_doc_positive c -> some_term_not_in_doc0 c -> exists x, ac2_build K (files_of c) = Ok x /\
    forall fuel r r' s t s' out', query_fuel c < fuel -> state2_ok s -> state2_ok t -> less r r' ->
    ac2_request K x fuel r' s = Ok s' -> res2 s' = Ok out' ->
    exists t', ac2_request K x fuel r t = Ok t' /\ res2 t' = Ok (firstn (rq_k r) out').
  Proof.
    intros HK Hp H0. destruct (ask2 K HK c Hwf Hp H0) as (x & E & H). exists x. split; [exact E|]. intros fuel r r' s t s' out' Hf.
    apply (less_answer res2 (found_for2 c) (fun r ts last out => reportable2 c out /\ ~ over c r ts last out) (ac2_request K x fuel) state2_ok).
    - intros r1 r2 ts last Ec. unfold found_for2. now rewrite Ec.
    - intros r1 r2 ts last out (L1 & L2 & L3 & L4) [A B]. split; [now apply reportable2_firstn|]. intros [C1 C2]. apply B. split; [congruence|].
      destruct C2 as [C2|C2]; [left; now apply (overruns_fewer c ts (rq_k r1))|right; now apply (stumbles_fewer c ts last (rq_k r1))].
    - intros r1 ts last s1 Hq Hs1. now apply H.
  Qed.
  Lemma fewer3 K : containers_ok K -> some_kept_doc_positive c -> exists x, ac3_build K (files_of c) = Ok x /\
    forall fuel r r' s t s' out', query_fuel c < fuel -> state2_ok s -> state2_ok t -> less r r' ->
    ac3_request K x fuel r' s = Ok s' -> res2 s' = Ok out' ->
    exists t', ac3_request K x fuel r t = Ok t' /\ res2 t' = Ok (firstn (rq_k r) out').
  Proof.
    intros HK Hp. destruct (ask3 K HK c Hwf Hp) as (x & E & H). exists x. split; [exact E|]. intros fuel r r' s t s' out' Hf.
    apply (less_answer res2 (found_for2 c) (fun _ _ _ out => reportable2 c out) (ac3_request K x fuel) state2_ok).
    - intros r1 r2 ts last Ec. unfold found_for2. now rewrite Ec.
    - intros r1 r2 _ _ out _. apply reportable2_firstn.
    - intros r1 ts last s1 Hq Hs1. now apply H.
  Qed.
End Fewer.

(** ** Conjunctive search with an index of type 4: the results do not depend on k, only how many there are *)
Section Fewer4.
  Context (K : bcontainers) (HK : bcontainers_ok K) (c : collection) (Hwf : wf_collection c) (Hfew : few_postings c).

  Lemma conj4_full x bs at_ fuel q ts last : index4_ok K c x bs at_ -> query_fuel c < fuel -> query_split q ts last ->
    exists full, forall k s, 1 <= k -> state2_ok s ->
      gives res2 (reportable2 c (answer_of c (firstn k full))) (answer_of c (firstn k full)) (ac4_conjunctive_topk K x fuel k q s).
  Proof.
    intros Hx Hfuel Hs. pose proof (stored_nodup c Hwf) as Hnd.
    destruct (start_ok c Hwf (a4_core x) (i4_core K c x bs at_ Hx) false q ts last _ Hs state2_new_ok) as (o0 & s0 & _ & _ & _ & Ho0).
    destruct o0 as [[[prefix a] b]|].
    - destruct Ho0 as (_ & Hpos & Hr). pose proof Hr as [Hab _]. pose proof (positions_range c ts prefix Hpos) as Hpr.
      destruct (bi_conjunctive_trace K HK (universe c) (postings c) (a4_inverted x) bs at_ (universe_lt c Hwf) (postings_ok c Hwf) Hfew
                (i4_inv K c x bs at_ Hx) (a + 1) (b + 1) ltac:(lia) ltac:(rewrite postings_length; lia) fuel prefix) as (tr & E & T1 & T2).
      { now rewrite postings_length. } { rewrite postings_length. exact Hfuel. }
      exists (hits_of tr). intros k s Hk Hst. unfold ac4_conjunctive_topk.
      destruct (start_ok c Hwf (a4_core x) (i4_core K c x bs at_ Hx) false q ts last s Hs Hst) as (o & s1 & E1 & Hst1 & Hpool & Ho).
      rewrite E1. cbn [bind]. destruct o as [[[prefix' a'] b']|].
      2:{ exfalso. destruct Ho as [[Hn _]|Hn]; [discriminate|]. apply (Hn a); [lia|]. apply (proj2 Hr a); lia. }
      destruct Ho as (_ & Hpos' & Hr'). rewrite (positions_unique _ Hnd _ _ Hpos' _ Hpos) in *. destruct (exact_range_unique _ _ _ _ _ _ Hr' Hr) as [-> ->].
      pose proof Hst1 as (Hp & _). pose proof Hp as [Hp1 Hp2].
      pose proof (trace_docs c Hwf K (a4_inverted x) bs at_ (universe_lt c Hwf) Hfew (i4_inv K c x bs at_ Hx) ts (found c last) prefix a b Hpos Hr tr T1 T2 k) as Hds.
      assert (Ek : (k =? 0) = false) by (apply Nat.eqb_neq; lia). rewrite Ek in Hds. cbn [andb] in Hds.
      set (ds := firstn k (hits_of tr)) in *.
      assert (Hout : outcome MAX_K ds (bi_conjunctive K (a4_inverted x) fuel k prefix (a + 1) (b + 1) (p_scores (s2_pool s1)))).
      { rewrite E, <- Hp1. unfold ds. apply write_pos. lia. }
      clearbody ds.
      assert (Hw : forall d, In d ds -> exists ids, is_doc c d ids).
      { destruct Hds as (full & Hf & D1 & _). intros d Hd. rewrite (D1 Hk) in Hd. apply firstn_in in Hd.
        destruct (full_match c Hwf _ ts (found c last) full d Hf Hd) as (ids & H & _). eauto. }
      destruct Hout as [(Hlen & scores & Eb & L & F)|(Hlen & Eb)]; rewrite Eb; cbn [bind].
      2:{ split; [|reflexivity]. intros [[Hr1 _] _]. unfold answer_of in Hr1. rewrite map_length in Hr1. lia. }
      destruct (finish_ok c Hwf (a4_core x) (i4_core K c x bs at_ Hx) ds scores s1 Hst1) as [G1 G2].
      { rewrite Hpool. reflexivity. } { exact F. } { exact L. }
      { apply Forall_forall. intros d Hd. destruct (Hw d Hd) as (ids & Hdoc). eapply (is_doc_has c Hwf); eauto. }
      split; [|exact G2]. intros Ho. destruct (G1 Ho) as (s' & A & B & _). exists s'. auto.
    - exists []. intros k s Hk Hst. unfold ac4_conjunctive_topk.
      destruct (start_ok c Hwf (a4_core x) (i4_core K c x bs at_ Hx) false q ts last s Hs Hst) as (o & s1 & E1 & Hst1 & Hpool & Ho).
      rewrite E1. cbn [bind]. destruct o as [[[prefix' a'] b']|].
      { exfalso. destruct Ho0 as [[Hn _]|Hn]; [discriminate|]. destruct Ho as (_ & _ & [A B]). apply (Hn a'); [lia|]. apply B; lia. }
      rewrite firstn_nil. split; [|intros H; exfalso; apply H; apply reportable2_nil]. intros _. exists s1. split; [reflexivity|]. now apply (empty_results s1 s).
  Qed.

  Lemma fewer4 m : some_kept_doc_positive c -> exists x, ac4_build K m (files_of c) = Ok x /\
    forall fuel r r' s t s' out', query_fuel c < fuel -> state2_ok s -> state2_ok t -> fewer r r' ->
    ac4_request K x fuel r' s = Ok s' -> res2 s' = Ok out' ->
    exists t', ac4_request K x fuel r t = Ok t' /\ res2 t' = Ok (firstn (rq_k r) out').
  Proof.
    intros Hp. destruct (ac4_build_ok K HK c Hwf Hfew m Hp) as (x & bs & at_ & E & Hx). exists x. split; [exact E|].
    intros fuel r r' s t s' out' Hf Hs Ht (H1 & H2 & H3) Er Eo. destruct (query_split_exists_unique (rq_text r)) as (ts & last & Hq & _).
    unfold ac4_request in *. rewrite <- H1, <- H2 in Er. destruct (rq_conj r).
    - destruct (conj4_full x bs at_ fuel (rq_text r) ts last Hx Hf Hq) as (full & H).
      pose proof (H (rq_k r') s ltac:(lia) Hs) as G'. pose proof (H (rq_k r) t ltac:(lia) Ht) as G.
      rewrite (gives_results res2 _ _ _ _ _ G' Er Eo).
      assert (Ef : firstn (rq_k r) (answer_of c (firstn (rq_k r') full)) = answer_of c (firstn (rq_k r) full)).
      { unfold answer_of. rewrite firstn_map, firstn_firstn. f_equal. f_equal. lia. }
      rewrite Ef. refine (gives_mono res2 _ _ _ _ _ _ s' _ G' G Er). rewrite <- Ef. apply reportable2_firstn.
    - pose proof (fun k s Hs => ac4_prefix_ok K HK c Hwf x bs at_ Hx fuel Hf k (rq_text r) ts last Hq s Hs) as H.
      destruct (H (rq_k r') s Hs) as (o' & A' & B' & C'). destruct (H (rq_k r) t Ht) as (o & A & B & C).
      assert (G' : gives res2 (reportable2 c o') o' (ac4_prefix_topk K x fuel (rq_k r') (rq_text r) s)).
      { split; [|exact C']. intros Ho. destruct (B' Ho) as (s2 & X & Y & _). exists s2. auto. }
      assert (G : gives res2 (reportable2 c o) o (ac4_prefix_topk K x fuel (rq_k r) (rq_text r) t)).
      { split; [|exact C]. intros Ho. destruct (B Ho) as (s2 & X & Y & _). exists s2. auto. }
      rewrite (gives_results res2 _ _ _ _ _ G' Er Eo).
      pose proof (topk_fewer c Hwf _ _ _ _ A' (proj1 H3) (or_introl (proj2 H3))) as A2. pose proof (answer_unique c Hwf _ _ _ _ A A2) as ->.
      exact (gives_mono res2 _ _ _ _ _ _ s' (reportable2_firstn c _ _) G' G Er).
  Qed.
End Fewer4.

(** ** More specific requests *)
Section Refine.
  Context (c : collection) (Hwf : wf_collection c).

  Lemma topk_includes (P P' : list (list N) -> Prop) n out out' : topk_answer c P n out -> topk_answer c P' n out' ->
    (forall ids, In ids (comps c) -> P' (words_of c ids) -> P (words_of c ids)) -> includes n out out'.
  Proof.
    intros (_ & _ & _ & D) (_ & _ & C' & _) H d s Hd. destruct (C' d s Hd) as (ids & Hdoc & HP & ->). apply D; [exact Hdoc|].
    apply H; [|exact HP]. destruct Hdoc as (i & _ & E). now apply nth_error_In in E.
  Qed.
  Lemma topk_includes_but (P P' : list (list N) -> Prop) n out out' : topk_answer c P n out -> topk_answer c P' n out' ->
    (forall ids, In ids (comps c) -> ids <> nth 0 (comps c) [] -> P' (words_of c ids) -> P (words_of c ids)) -> includes n out (without_first c out').
  Proof.
    intros (_ & _ & _ & D) (_ & _ & C' & _) H d s Hd. unfold without_first in Hd. apply filter_In in Hd. destruct Hd as [Hd Hn]. cbn [fst] in Hn.
    apply negb_true_iff, Nat.eqb_neq in Hn. destruct (C' d s Hd) as (ids & Hdoc & HP & ->). apply D; [exact Hdoc|].
    destruct Hdoc as (i & Ei & E). apply H; [now apply nth_error_In in E| |exact HP]. intros ->. apply Hn.
    assert (Hi : i < length (comps c)) by (apply nth_error_Some; congruence).
    assert (Hi0 : i = 0).
    { apply (proj1 (NoDup_nth_error (comps c)) (lex_sorted_NoDup _ (proj1 (wf_comps c Hwf)))); [exact Hi|]. rewrite E. symmetry. apply nth_error_nth'. lia. }
    subst i. symmetry. now apply nth_error_nth.
  Qed.

  Lemma prefix_trans (a b d : list N) : is_prefix a b -> is_prefix b d -> is_prefix a d.
  Proof. intros [x ->] [y ->]. exists (x ++ y). now rewrite app_assoc. Qed.
  Lemma found_refine last last' w : is_prefix last last' -> ~ (last <> [] /\ last <> last' /\ last' = nth 0 (terms c) []) ->
    found c last' w -> found c last w.
  Proof.
    intros Hp Hn [[A B] D]. destruct (list_eq_dec N.eq_dec last last') as [->|He]; [repeat split; auto|].
    split; [split; [eapply prefix_trans; eauto|]|].
    - intros Ew. destruct (list_eq_dec N.eq_dec last []) as [->|Hz]; [now left|exfalso]. destruct (B Ew) as [->|E].
      + destruct Hp as [y E]. destruct last; [congruence|discriminate].
      + apply Hn. split; [exact Hz|]. split; [exact He|]. congruence.
    - destruct (list_eq_dec N.eq_dec last []) as [->|Hz]; [now left|right]. destruct D as [->|D]; [|exact D].
      destruct Hp as [y E]. destruct last; [congruence|discriminate].
  Qed.
  Lemma conj_refine (R R' : list N -> Prop) ts ts' ws : incl ts ts' -> (forall w, R' w -> R w) -> conj_by c R' ts' ws -> conj_by c R ts ws.
  Proof. intros Hi H (A & w & B & D). split; [intros t Ht; apply A; now apply Hi|]. exists w. auto. Qed.
  Lemma prefix_refine (R R' : list N -> Prop) ts ws : (forall w, R' w -> R w) -> prefix_by c R' ts ws -> prefix_by c R ts ws.
  Proof. intros H (A & w & rest & B & D). split; [exact A|]. exists w, rest. auto. Qed.
  Lemma prefix_conj (R : list N -> Prop) ts ws : prefix_by c R ts ws -> conj_by c R ts ws.
  Proof.
    intros (_ & w & rest & -> & H). split; [intros t Ht _; apply in_or_app; now left|]. exists w. split; [apply in_or_app; right; now left|exact H].
  Qed.

  Lemma refines_split r r' : refines r r' -> forall ts last ts' last', query_split (rq_text r) ts last -> query_split (rq_text r') ts' last' ->
    is_prefix last last' /\ if rq_conj r then incl ts ts' else ts = ts'.
  Proof.
    intros (_ & _ & t1 & l1 & t2 & l2 & A & B & D & E) ts last ts' last' H H'.
    destruct (query_split_exists_unique (rq_text r)) as (x & y & _ & U). destruct (U _ _ H) as [-> ->]. destruct (U _ _ A) as [<- <-].
    destruct (query_split_exists_unique (rq_text r')) as (x' & y' & _ & U'). destruct (U' _ _ H') as [-> ->]. destruct (U' _ _ B) as [<- <-]. auto.
  Qed.
  Lemma becomes_split r r' ts last ts' last' : query_split (rq_text r) ts last -> query_split (rq_text r') ts' last' ->
    ~ becomes_first c r r' -> ~ (last <> [] /\ last <> last' /\ last' = nth 0 (terms c) []).
  Proof. intros H H' Hn X. apply Hn. exists ts, last, ts', last'. auto. Qed.

  (** Any search that gives the definite answers described by [ff]. *)
  Lemma related {S} (results : S -> res _) (ff : request -> list (list N) -> list N -> list (list N) -> Prop) ok (run : request -> S -> res S) (good : S -> Prop)
      (shown' : list (nat * list N) -> list (nat * list N)) r r' :
    rq_k r = rq_k r' ->
    (forall r0 ts last s, r0 = r \/ r0 = r' -> query_split (rq_text r0) ts last -> good s ->
       exists out, topk_answer c (ff r0 ts last) (limit c (rq_k r0)) out /\ gives results (ok r0 ts last out) out (run r0 s)) ->
    (forall ts last ts' last' out out', query_split (rq_text r) ts last -> query_split (rq_text r') ts' last' ->
       topk_answer c (ff r ts last) (limit c (rq_k r)) out -> topk_answer c (ff r' ts' last') (limit c (rq_k r)) out' -> includes (limit c (rq_k r)) out (shown' out')) ->
    forall s t s' t' out out', good s -> good t -> run r s = Ok s' -> results s' = Ok out -> run r' t = Ok t' -> results t' = Ok out' ->
    includes (limit c (rq_k r)) out (shown' out').
  Proof.
    intros Hk H Hi s t s' t' out out' Hs Ht E Eo E' Eo'.
    destruct (query_split_exists_unique (rq_text r)) as (ts & last & Hq & _). destruct (query_split_exists_unique (rq_text r')) as (ts' & last' & Hq' & _).
    destruct (H r ts last s (or_introl eq_refl) Hq Hs) as (o & A & G). destruct (H r' ts' last' t (or_intror eq_refl) Hq' Ht) as (o' & A' & G').
    rewrite (gives_results results _ _ _ _ _ G E Eo), (gives_results results _ _ _ _ _ G' E' Eo'). rewrite <- Hk in A'. exact (Hi _ _ _ _ _ _ Hq Hq' A A').
  Qed.

  Lemma refine1 r r' ts last ts' last' out out' : refines r r' -> ~ becomes_first c r r' ->
    query_split (rq_text r) ts last -> query_split (rq_text r') ts' last' ->
    topk_answer c (found_for1 c r ts last) (limit c (rq_k r)) out -> topk_answer c (found_for1 c r' ts' last') (limit c (rq_k r)) out' -> includes (limit c (rq_k r)) out out'.
  Proof.
    intros Hr Hn Hq Hq' A A'. destruct (refines_split r r' Hr _ _ _ _ Hq Hq') as [Hp Ht]. pose proof (becomes_split r r' _ _ _ _ Hq Hq' Hn) as Hb.
    apply (topk_includes _ _ _ _ _ A A'). intros ids _. unfold found_for1. rewrite <- (proj1 Hr). destruct (rq_conj r).
    - apply conj_refine; [exact Ht|]. intros w. now apply found_refine.
    - rewrite <- Ht. apply prefix_refine. intros w. now apply found_refine.
  Qed.
  Lemma refine2 r r' ts last ts' last' out out' : refines r r' -> ~ becomes_first c r r' ->
    query_split (rq_text r) ts last -> query_split (rq_text r') ts' last' ->
    topk_answer c (found_for2 c r ts last) (limit c (rq_k r)) out -> topk_answer c (found_for2 c r' ts' last') (limit c (rq_k r)) out' ->
    includes (limit c (rq_k r)) out (if rq_conj r then out' else without_first c out').
  Proof.
    intros Hr Hn Hq Hq' A A'. destruct (refines_split r r' Hr _ _ _ _ Hq Hq') as [Hp Ht]. pose proof (becomes_split r r' _ _ _ _ Hq Hq' Hn) as Hb.
    unfold found_for2 in *. rewrite <- (proj1 Hr) in A'. destruct (rq_conj r).
    - apply (topk_includes _ _ _ _ _ A A'). intros ids _. apply conj_refine; [exact Ht|]. intros w. now apply found_refine.
    - apply (topk_includes_but _ _ _ _ _ A A'). intros ids Hin Hne (B1 & B2 & B3). rewrite <- Ht in B1. split; [|split; [exact B2|]].
      + eapply prefix_refine; [|exact B1]. intros w. now apply found_refine.
      + intros Ew. exfalso. apply Hne. assert (Hin0 : In (nth 0 (comps c) []) (comps c)) by (apply nth_In; destruct (comps c); [destruct Hin|cbn; lia]).
        apply (words_inj c Hwf); [| |exact Ew]; apply Forall_forall; intros y Hy; [exact (proj1 (proj2 (ids_range c Hwf ids y Hin Hy)))|exact (proj1 (proj2 (ids_range c Hwf _ y Hin0 Hy)))].
  Qed.

  Lemma both1 r r' ts last ts' last' out out' : both_ways r r' -> query_split (rq_text r) ts last -> query_split (rq_text r') ts' last' ->
    topk_answer c (found_for1 c r ts last) (limit c (rq_k r)) out -> topk_answer c (found_for1 c r' ts' last') (limit c (rq_k r)) out' -> includes (limit c (rq_k r)) out' out.
  Proof.
    intros (H1 & H2 & _ & H3) Hq Hq' A A'. rewrite <- H3 in Hq'. destruct (query_split_exists_unique (rq_text r)) as (x & y & _ & U).
    destruct (U _ _ Hq) as [-> ->]. destruct (U _ _ Hq') as [-> ->]. unfold found_for1 in *. rewrite H1 in A. rewrite H2 in A'.
    apply (topk_includes _ _ _ _ _ A' A). intros ids _. apply prefix_conj.
  Qed.
  Lemma both2 r r' ts last ts' last' out out' : both_ways r r' -> query_split (rq_text r) ts last -> query_split (rq_text r') ts' last' ->
    topk_answer c (found_for2 c r ts last) (limit c (rq_k r)) out -> topk_answer c (found_for2 c r' ts' last') (limit c (rq_k r)) out' -> includes (limit c (rq_k r)) out' out.
  Proof.
    intros (H1 & H2 & _ & H3) Hq Hq' A A'. rewrite <- H3 in Hq'. destruct (query_split_exists_unique (rq_text r)) as (x & y & _ & U).
    destruct (U _ _ Hq) as [-> ->]. destruct (U _ _ Hq') as [-> ->]. unfold found_for2 in *. rewrite H1 in A. rewrite H2 in A'.
    apply (topk_includes _ _ _ _ _ A' A). intros ids _ [B _]. now apply prefix_conj.
  Qed.
End Refine.

Lemma ask4 K : bcontainers_ok K -> forall c, wf_collection c -> few_postings c -> forall m, some_kept_doc_positive c -> exists x, ac4_build K m (files_of c) = Ok x /\
  forall fuel r ts last s, query_fuel c < fuel -> query_split (rq_text r) ts last -> state2_ok s ->
  exists out, topk_answer c (prefix_found c ts last) (limit c (rq_k r)) out /\ gives res2 (reportable2 c out) out (ac4_prefix_topk K x fuel (rq_k r) (rq_text r) s).
Proof.
  intros HK c Hwf Hfew m Hp. destruct (auto4_exact K HK c Hwf Hfew m Hp) as (x & E & _ & H). exists x. split; [exact E|].
  intros fuel r ts last s Hf Hq Hs. destruct (H fuel (rq_k r) (rq_text r) ts last s Hf Hq Hs) as [(o & B1 & B2 & B3) _]. exists o. split; [exact B1|].
  split; [|exact B3]. intros Ho. destruct (B2 Ho) as (s' & C1 & C2 & _). exists s'; auto.
Qed.
Lemma ask4_conj K : bcontainers_ok K -> forall c, wf_collection c -> few_postings c -> forall m, some_kept_doc_positive c -> exists x, ac4_build K m (files_of c) = Ok x /\
  forall fuel r ts last s, query_fuel c < fuel -> query_split (rq_text r) ts last -> state2_ok s -> 1 <= rq_k r ->
  (rq_conj r = true -> query_exact_by c (found c last) (bi_bounds K (a4_inverted x)) ts) ->
  exists out, topk_answer c (found_for2 c r ts last) (limit c (rq_k r)) out /\ gives res2 (reportable2 c out) out (ac4_request K x fuel r s).
Proof.
  intros HK c Hwf Hfew m Hp. destruct (auto4_exact K HK c Hwf Hfew m Hp) as (x & E & Hb & H). exists x. split; [exact E|].
  intros fuel r ts last s Hf Hq Hs Hk Hx. destruct (H fuel (rq_k r) (rq_text r) ts last s Hf Hq Hs) as [(o & B1 & B2 & B3) (o' & B1' & B2' & B3')].
  unfold found_for2, ac4_request. destruct (rq_conj r).
  - exists o'. split; [rewrite limit_id by exact Hk; exact (blocked_exact c Hwf _ ts (found c last) Hb (Hx eq_refl) (rq_k r) o' Hk B1')|].
    split; [|exact B3']. intros Ho. destruct (B2' Ho) as (s' & C1 & C2 & _). exists s'; auto.
  - exists o. split; [exact B1|]. split; [|exact B3]. intros Ho. destruct (B2 Ho) as (s' & C1 & C2 & _). exists s'; auto.
Qed.
