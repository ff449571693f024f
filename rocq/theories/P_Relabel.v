(** Answers of two collections that differ in the doc ids but not in their order. *)
From Coq Require Import Sorted Lia.
From Verif Require Import Base S_Order S_Vocab S_Parse M_Parse P_Parse M_Containers S_Containers M_Auto M_Auto1 S_Collection S_Index S_Room S_Found M_Auto2 S_Index2 S_Build M_Blocked S_Blocked.
From Verif Require Import P_Order P_Kept P_ParseFc P_Collection P_Auto1 P_Auto23 P_Auto4 P_Exact S_Meta P_Meta P_Again S_Relabel.
Local Open Scope nat_scope.

Section Relabel.
  Context (f : nat -> nat) (ts0 : list (list N)) (cs0 : list (list N)) (ds0 : list nat) (u u' : nat).
  Notation c := {| terms := ts0; comps := cs0; docs := ds0; universe := u |}.
  Notation c' := {| terms := ts0; comps := cs0; docs := map f ds0; universe := u' |}.
  Context (Hwf : wf_collection c) (Hwf' : wf_collection c') (Ho : forall d e, In d ds0 -> In e ds0 -> d < e -> f d < f e).

  Lemma rl_inj d e : In d ds0 -> In e ds0 -> f d = f e -> d = e.
  Proof using Ho. intros Hd He E. destruct (Nat.lt_trichotomy d e) as [L|[L|L]]; [|exact L|]; apply Ho in L; auto; lia. Qed.
  Lemma rl_lt d e : In d ds0 -> In e ds0 -> f d < f e -> d < e.
  Proof using Ho. intros Hd He L. destruct (Nat.lt_trichotomy d e) as [X|[->|X]]; [exact X|lia|]. apply Ho in X; auto; lia. Qed.
  Lemma rl_mono d e : In d ds0 -> In e ds0 -> d <= e -> f d <= f e.
  Proof using Ho. intros Hd He L. destruct (Nat.eq_dec d e) as [->|]; [lia|]. assert (f d < f e) by (apply Ho; auto; lia). lia. Qed.
  Lemma rl_le d e : In d ds0 -> In e ds0 -> f d <= f e -> d <= e.
  Proof using Ho. intros Hd He L. destruct (Nat.le_gt_cases d e) as [X|X]; [exact X|]. apply Ho in X; auto; lia. Qed.

  Lemma doc_id d ids : is_doc c d ids -> In d ds0.
  Proof. intros (i & Di & _). eapply nth_error_In; exact Di. Qed.
  Lemma doc_to d ids : is_doc c d ids -> is_doc c' (f d) ids.
  Proof. intros (i & Di & Ci). exists i. split; [cbn; now apply map_nth_error|exact Ci]. Qed.
  Lemma doc_from d' ids : is_doc c' d' ids -> exists d, d' = f d /\ is_doc c d ids.
  Proof.
    intros (i & Di & Ci). cbn in Di. rewrite nth_error_map in Di. destruct (nth_error ds0 i) as [d|] eqn:E; [|discriminate]. injection Di as <-.
    exists d. split; [reflexivity|]. exists i. split; assumption.
  Qed.
  Lemma doc_back d ids : In d ds0 -> is_doc c' (f d) ids -> is_doc c d ids.
  Proof using Ho. intros Hd H. destruct (doc_from _ _ H) as (e & E & He). apply rl_inj in E; [subst; exact He|exact Hd|eapply doc_id; eauto]. Qed.

  Lemma answer_docs P k out : topk_answer c P k out -> forall d s, In (d, s) out -> In d ds0.
  Proof. intros (_ & _ & A & _) d s Hin. destruct (A d s Hin) as (ids & Hd & _). eapply doc_id; eauto. Qed.

  Lemma topk_relabel P k out : topk_answer c P k out -> topk_answer c' P k (relabel f out).
  Proof using Ho.
    intros H. pose proof (answer_docs P k out H) as Hin. destruct H as (A & B & C & D). unfold relabel. split; [|split; [|split]].
    - rewrite map_map. cbn [fst]. clear B C D. revert Hin A. induction out as [|[d s] out IH]; intros Hin A; [constructor|]. cbn [map fst] in *.
      inversion A as [|? ? A1 A2]; subst. constructor; [apply IH; [intros d1 s1 H1; eapply Hin; right; eauto|exact A1]|].
      apply Forall_forall. intros e He. apply in_map_iff in He. destruct He as ([e1 s1] & <- & He). cbn [fst].
      apply Ho; [eapply Hin; now left|eapply Hin; right; eauto|]. rewrite Forall_forall in A2. apply A2. apply in_map_iff. now exists (e1, s1).
    - now rewrite map_length.
    - intros d' s Hd. apply in_map_iff in Hd. destruct Hd as ([d s1] & E & Hd). cbn in E. injection E as <- <-.
      destruct (C d s1 Hd) as (ids & X & Y & Z). exists ids. split; [now apply doc_to|]. split; [exact Y|exact Z].
    - intros d' ids Hd Hp. destruct (doc_from d' ids Hd) as (d & -> & Hd0). destruct (D d ids Hd0 Hp) as [X|[X Y]].
      + left. apply in_map_iff. exists (d, text c ids). split; [reflexivity|exact X].
      + right. split; [now rewrite map_length|]. rewrite Forall_forall in *. intros p Hp1. apply in_map_iff in Hp1. destruct Hp1 as ([e s] & <- & He). cbn [fst].
        apply Ho; [eapply Hin; eauto|eapply doc_id; eauto|]. exact (Y (e, s) He).
  Qed.

  Lemma room_for_relabel ids : forall o, room_for c o ids <-> room_for c' o ids.
  Proof. induction ids as [|x ids IH]; intros o; [reflexivity|]. cbn [room_for]. apply and_iff_compat_l. apply IH. Qed.
  Lemma room_relabel out : (forall d s, In (d, s) out -> In d ds0) -> forall o, has_room c o out <-> has_room c' o (relabel f out).
  Proof using Ho.
    induction out as [|[d s] out IH]; intros Hin o; [reflexivity|]. cbn [relabel map has_room fst snd].
    rewrite (IH (fun d1 s1 H1 => Hin d1 s1 (or_intror H1)) (o + length s)). apply and_iff_compat_r.
    split; intros H ids Hd.
    - apply room_for_relabel. apply H. apply doc_back; [eapply Hin; now left|exact Hd].
    - apply room_for_relabel. apply H. now apply doc_to.
  Qed.
  Lemma legible_relabel out : (forall d s, In (d, s) out -> In d ds0) -> (legible c out <-> legible c' (relabel f out)).
  Proof using Ho.
    intros Hin. split.
    - intros H d' s ids x Hd' Hd Hx. apply in_map_iff in Hd'. destruct Hd' as ([d s1] & E & Hi). cbn in E. injection E as <- <-.
      apply (H d s1 ids x Hi); [|exact Hx]. apply doc_back; [eapply Hin; eauto|exact Hd].
    - intros H d s ids x Hi Hd Hx. apply (H (f d) s ids x); [|now apply doc_to|exact Hx]. apply in_map_iff. now exists (d, s).
  Qed.
  Lemma reportable_relabel out : (forall d s, In (d, s) out -> In d ds0) -> (reportable c out <-> reportable c' (relabel f out)).
  Proof using Ho.
    intros Hin. unfold reportable. rewrite <- (room_relabel out Hin 0), <- (legible_relabel out Hin). unfold relabel. rewrite map_length. reflexivity.
  Qed.
  Lemma stored_docs_in d : In d (stored ds0) -> In d ds0.
  Proof. intros H. destruct (stored_split ds0) as [rest E]. rewrite E. apply in_or_app. now left. Qed.
  Lemma stored_relabel d : In d ds0 -> (In d (stored ds0) <-> In (f d) (stored (map f ds0))).
  Proof using Ho.
    intros Hd. assert (E : stored (map f ds0) = map f (stored ds0)) by (unfold stored; rewrite map_length; destruct (length ds0 mod (BUCKET + 1) =? 0); [apply firstn_map|reflexivity]). rewrite E. split.
    - apply in_map.
    - intros H. apply in_map_iff in H. destruct H as (e & Ee & He). rewrite <- (rl_inj e d (stored_docs_in e He) Hd Ee). exact He.
  Qed.
  Lemma retained_relabel out : (forall d s, In (d, s) out -> In d ds0) -> (retained c out <-> retained c' (relabel f out)).
  Proof using Ho.
    intros Hin. split.
    - intros H d' s Hd'. apply in_map_iff in Hd'. destruct Hd' as ([d s1] & E & Hi). cbn in E. injection E as <- <-. apply (stored_relabel d (Hin d s1 Hi)). exact (H d s1 Hi).
    - intros H d s Hi. apply (stored_relabel d (Hin d s Hi)). apply (H (f d) s). apply in_map_iff. now exists (d, s).
  Qed.
  Lemma reportable2_relabel out : (forall d s, In (d, s) out -> In d ds0) -> (reportable2 c out <-> reportable2 c' (relabel f out)).
  Proof using Ho. intros Hin. unfold reportable2. now rewrite (reportable_relabel out Hin), (retained_relabel out Hin). Qed.

  Lemma overruns_relabel ts k out : (forall d s, In (d, s) out -> In d ds0) -> (overruns c ts k out <-> overruns c' ts k (relabel f out)).
  Proof using Ho.
    intros Hin. unfold overruns. split.
    - intros (A & B & C & d & ids & Hd & D & F). split; [exact A|]. split; [unfold relabel; now rewrite map_length|]. split; [exact C|].
      exists (f d), ids. split; [now apply doc_to|]. split; [exact D|]. rewrite Forall_forall in *. intros p Hp. apply in_map_iff in Hp. destruct Hp as ([e s] & <- & He). cbn [fst].
      apply Ho; [eapply Hin; eauto|eapply doc_id; eauto|]. exact (F (e, s) He).
    - intros (A & B & C & d' & ids & Hd & D & F). unfold relabel in B. rewrite map_length in B. split; [exact A|]. split; [exact B|]. split; [exact C|].
      destruct (doc_from d' ids Hd) as (d & -> & Hd0). exists d, ids. split; [exact Hd0|]. split; [exact D|]. rewrite Forall_forall in *. intros [e s] He. cbn [fst].
      apply rl_lt; [eapply Hin; eauto|eapply doc_id; eauto|]. apply (F (f e, s)). apply in_map_iff. now exists (e, s).
  Qed.
  Lemma stumbles_relabel ts last k out : (forall d s, In (d, s) out -> In d ds0) -> (stumbles c ts last k out <-> stumbles c' ts last k (relabel f out)).
  Proof using Ho.
    intros Hin. unfold stumbles. split.
    - intros (A & B & d & ids & Hd & D & F & G). split; [exact A|]. split; [exact B|]. exists (f d), ids. split; [now apply doc_to|]. split; [exact D|].
      split; [intros X; apply F; apply (stored_relabel d (doc_id d ids Hd)); exact X|].
      destruct G as [G|[G|([e s] & Ge & Gl)]]; [now left|right; left; unfold relabel; now rewrite map_length|right; right]. exists (f e, s).
      split; [apply in_map_iff; now exists (e, s)|]. cbn [fst] in *. apply rl_mono; [eapply doc_id; eauto|eapply Hin; eauto|exact Gl].
    - intros (A & B & d' & ids & Hd & D & F & G). destruct (doc_from d' ids Hd) as (d & -> & Hd0). split; [exact A|]. split; [exact B|]. exists d, ids. split; [exact Hd0|]. split; [exact D|].
      split; [intros X; apply F; apply (stored_relabel d (doc_id d ids Hd0)); exact X|].
      destruct G as [G|[G|(p & Ge & Gl)]]; [now left|right; left; unfold relabel in G; now rewrite map_length in G|right; right]. apply in_map_iff in Ge. destruct Ge as ([e s] & <- & He). cbn [fst] in *. exists (e, s).
      split; [exact He|]. cbn [fst]. apply rl_le; [eapply doc_id; eauto|eapply Hin; eauto|exact Gl].
  Qed.
  Lemma over_relabel r ts last out : (forall d s, In (d, s) out -> In d ds0) -> (over c r ts last out <-> over c' r ts last (relabel f out)).
  Proof using Ho. intros Hin. unfold over. now rewrite (overruns_relabel ts (rq_k r) out Hin), (stumbles_relabel ts last (rq_k r) out Hin). Qed.

  (** Two runs. *)
  Context {S : Type} (results : S -> res (list (nat * list N))).
  Lemma gives_ub (ok : Prop) out r : gives results ok out r -> (r = UB <-> ~ ok).
  Proof. intros [A B]. split; [|exact B]. intros E Hok. destruct (A Hok) as (s & X & _). congruence. Qed.
  Lemma same_gives (ok ok' : Prop) P P' k out out' r r' : P = P' -> topk_answer c P k out -> topk_answer c' P' k out' ->
    ((forall d s, In (d, s) out -> In d ds0) -> out' = relabel f out -> (ok <-> ok')) ->
    gives results ok out r -> gives results ok' out' r' -> same_answers f results r r'.
  Proof using Ho Hwf'.
    intros <- A A' Hok G G'. pose proof (answer_unique c' Hwf' P k _ _ A' (topk_relabel P k out A)) as E. specialize (Hok (answer_docs P k out A) E).
    split; [|split].
    - intros s o Er Eo. pose proof (gives_results results _ _ _ _ _ G Er Eo) as ->. rewrite <- E. exact (gives_mono results _ _ _ _ _ _ s (proj1 Hok) G G' Er).
    - intros s' o Er Eo. pose proof (gives_results results _ _ _ _ _ G' Er Eo) as ->. destruct (gives_mono results _ _ _ _ _ _ s' (proj2 Hok) G' G Er) as (s & X & Y).
      exists s, out. split; [exact X|]. split; [exact Y|exact E].
    - rewrite (gives_ub ok out r G), (gives_ub ok' out' r' G'). now rewrite Hok.
  Qed.
End Relabel.

Lemma relabel1 K f c c' : containers_ok K -> wf_collection c -> wf_collection c' -> relabelled f c c' ->
  some_doc_positive c -> some_term_not_in_doc0 c -> some_doc_positive c' -> some_term_not_in_doc0 c' ->
  exists x x', ac1_build K (files_of c) = Ok x /\ ac1_build K (files_of c') = Ok x' /\
    forall fuel r s t, query_fuel c < fuel -> query_fuel c' < fuel -> state1_ok s -> state1_ok t ->
    same_answers f res1 (ac1_request K x fuel r s) (ac1_request K x' fuel r t).
Proof.
  intros HK Hwf Hwf' [R1 R2 R3 R4] Hp H0 Hp' H0'. destruct c as [ts0 cs0 ds0 u], c' as [ts1 cs1 ds1 u']. cbn [terms comps docs] in R1, R2, R3, R4. subst ts1 cs1 ds1.
  destruct (ask1 K HK _ Hwf Hp H0) as (x & E & H). destruct (ask1 K HK _ Hwf' Hp' H0') as (x' & E' & H'). exists x, x'. split; [exact E|]. split; [exact E'|].
  intros fuel r s t Hf Hf' Hs Ht. destruct (query_split_exists_unique (rq_text r)) as (ts & last & Hq & _).
  destruct (H fuel r ts last s Hf Hq Hs) as (o & A & G). destruct (H' fuel r ts last t Hf' Hq Ht) as (o' & A' & G').
  refine (same_gives f ts0 cs0 ds0 u u' Hwf' R4 res1 _ _ _ _ _ _ _ _ _ eq_refl A A' _ G G'). intros Hin ->. now apply reportable_relabel.
Qed.
Lemma relabel2 K f c c' : containers_ok K -> wf_collection c -> wf_collection c' -> relabelled f c c' ->
  some_kept_doc_positive c -> some_term_not_in_doc0 c -> some_kept_doc_positive c' -> some_term_not_in_doc0 c' ->
  exists x x', ac2_build K (files_of c) = Ok x /\ ac2_build K (files_of c') = Ok x' /\
    forall fuel r s t, query_fuel c < fuel -> query_fuel c' < fuel -> state2_ok s -> state2_ok t ->
    same_answers f res2 (ac2_request K x fuel r s) (ac2_request K x' fuel r t).
Proof.
  intros HK Hwf Hwf' [R1 R2 R3 R4] Hp H0 Hp' H0'. destruct c as [ts0 cs0 ds0 u], c' as [ts1 cs1 ds1 u']. cbn [terms comps docs] in R1, R2, R3, R4. subst ts1 cs1 ds1.
  destruct (ask2 K HK _ Hwf Hp H0) as (x & E & H). destruct (ask2 K HK _ Hwf' Hp' H0') as (x' & E' & H'). exists x, x'. split; [exact E|]. split; [exact E'|].
  intros fuel r s t Hf Hf' Hs Ht. destruct (query_split_exists_unique (rq_text r)) as (ts & last & Hq & _).
  destruct (H fuel r ts last s Hf Hq Hs) as (o & A & G). destruct (H' fuel r ts last t Hf' Hq Ht) as (o' & A' & G').
  refine (same_gives f ts0 cs0 ds0 u u' Hwf' R4 res2 _ _ _ _ _ _ _ _ _ eq_refl A A' _ G G'). intros Hin ->.
  rewrite (reportable2_relabel f ts0 cs0 ds0 u u' R4 o Hin), (over_relabel f ts0 cs0 ds0 u u' R4 r ts last o Hin). reflexivity.
Qed.
Lemma relabel3 K f c c' : containers_ok K -> wf_collection c -> wf_collection c' -> relabelled f c c' ->
  some_kept_doc_positive c -> some_kept_doc_positive c' ->
  exists x x', ac3_build K (files_of c) = Ok x /\ ac3_build K (files_of c') = Ok x' /\
    forall fuel r s t, query_fuel c < fuel -> query_fuel c' < fuel -> state2_ok s -> state2_ok t ->
    same_answers f res2 (ac3_request K x fuel r s) (ac3_request K x' fuel r t).
Proof.
  intros HK Hwf Hwf' [R1 R2 R3 R4] Hp Hp'. destruct c as [ts0 cs0 ds0 u], c' as [ts1 cs1 ds1 u']. cbn [terms comps docs] in R1, R2, R3, R4. subst ts1 cs1 ds1.
  destruct (ask3 K HK _ Hwf Hp) as (x & E & H). destruct (ask3 K HK _ Hwf' Hp') as (x' & E' & H'). exists x, x'. split; [exact E|]. split; [exact E'|].
  intros fuel r s t Hf Hf' Hs Ht. destruct (query_split_exists_unique (rq_text r)) as (ts & last & Hq & _).
  destruct (H fuel r ts last s Hf Hq Hs) as (o & A & G). destruct (H' fuel r ts last t Hf' Hq Ht) as (o' & A' & G').
  refine (same_gives f ts0 cs0 ds0 u u' Hwf' R4 res2 _ _ _ _ _ _ _ _ _ eq_refl A A' _ G G'). intros Hin ->. now apply reportable2_relabel.
Qed.
Lemma relabel4 (K : bcontainers) f c c' m : bcontainers_ok K -> wf_collection c -> wf_collection c' -> relabelled f c c' ->
  few_postings c -> few_postings c' -> some_kept_doc_positive c -> some_kept_doc_positive c' ->
  exists x x', ac4_build K m (files_of c) = Ok x /\ ac4_build K m (files_of c') = Ok x' /\
    forall fuel r s t, query_fuel c < fuel -> query_fuel c' < fuel -> state2_ok s -> state2_ok t ->
    (rq_conj r = true -> 1 <= rq_k r /\ forall ts last, query_split (rq_text r) ts last ->
      query_exact_by c (found c last) (bi_bounds K (a4_inverted x)) ts /\ query_exact_by c' (found c' last) (bi_bounds K (a4_inverted x')) ts) ->
    same_answers f res2 (ac4_request K x fuel r s) (ac4_request K x' fuel r t).
Proof.
  intros HK Hwf Hwf' [R1 R2 R3 R4] Hfew Hfew' Hp Hp'. destruct c as [ts0 cs0 ds0 u], c' as [ts1 cs1 ds1 u']. cbn [terms comps docs] in R1, R2, R3, R4. subst ts1 cs1 ds1.
  destruct (ask4_texts K HK _ Hwf Hfew m Hp) as (x & E & H). destruct (ask4_texts K HK _ Hwf' Hfew' m Hp') as (x' & E' & H'). exists x, x'. split; [exact E|]. split; [exact E'|].
  intros fuel r s t Hf Hf' Hs Ht Hx. destruct (query_split_exists_unique (rq_text r)) as (ts & last & Hq & _).
  destruct (proj2 (H fuel r Hf) ltac:(intros Hc; destruct (Hx Hc) as [Hk Hy]; split; [exact Hk|]; intros ts1 last1 Hq1; now apply Hy) ts last s Hq Hs) as (o & A & G).
  destruct (proj2 (H' fuel r Hf') ltac:(intros Hc; destruct (Hx Hc) as [Hk Hy]; split; [exact Hk|]; intros ts1 last1 Hq1; now apply Hy) ts last t Hq Ht) as (o' & A' & G').
  refine (same_gives f ts0 cs0 ds0 u u' Hwf' R4 res2 _ _ _ _ _ _ _ _ _ eq_refl A A' _ G G'). intros Hin ->. now apply reportable2_relabel.
Qed.
