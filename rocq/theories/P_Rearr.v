(** Requests that differ in the arrangement of the tokens are answered alike, whatever the answer is. *)
From Coq Require Import Lia.
From Verif Require Import Base S_Order S_Vocab S_Parse M_Parse P_Parse M_Fc M_Containers M_Auto M_Auto1 S_Collection S_Index S_Found M_Auto2 S_Index2 M_Blocked P_Order P_Kept P_ParseFc P_Collection P_Pool S_Rearr.
Local Open Scope nat_scope.

(** The same outcome, up to [R]. *)
Definition alike {A} (R : A -> A -> Prop) (r1 r2 : res A) : Prop :=
  match r1, r2 with Ok a, Ok b => R a b | Exn, Exn | UB, UB | Fuel, Fuel => True | _, _ => False end.
Lemma alike_bind {A B} (R : A -> A -> Prop) (Q : B -> B -> Prop) r1 r2 f1 f2 :
  alike R r1 r2 -> (forall a b, R a b -> alike Q (f1 a) (f2 b)) -> alike Q (bind r1 f1) (bind r2 f2).
Proof. destruct r1, r2; cbn; auto; contradiction. Qed.
Lemma alike_same {A B} (Q : B -> B -> Prop) (r : res A) f1 f2 : (forall a, alike Q (f1 a) (f2 a)) -> alike Q (bind r f1) (bind r f2).
Proof. destruct r; cbn; auto. Qed.

(** ** Tokens to ids *)
Lemma positions_in terms : NoDup terms -> forall ts ids, positions terms ts ids -> forall i, In i ids <-> exists t j, In t ts /\ nth_error terms j = Some t /\ i = j + 1.
Proof.
  intros Hn. induction 1 as [|t ts j ids Hj H IH|t ts ids Ht H IH]; intros i.
  - split; [intros []|intros (t & j & [] & _)].
  - cbn [In]. rewrite IH. split.
    + intros [<-|(t' & j' & A & B & C)]; [exists t, j; auto|exists t', j'; auto].
    + intros (t' & j' & [<-|A] & B & ->); [left|right; eauto]. f_equal. apply (proj1 (NoDup_nth_error terms) Hn); [apply nth_error_Some; congruence|congruence].
  - rewrite IH. split.
    + intros (t' & j' & A & B & C). exists t', j'. cbn. auto.
    + intros (t' & j' & [<-|A] & B & ->); [|eauto]. destruct Ht. now apply nth_error_In in B.
Qed.
Lemma positions_set terms ts1 ts2 ids1 ids2 : NoDup terms -> positions terms ts1 ids1 -> positions terms ts2 ids2 -> (forall t, In t terms -> (In t ts1 <-> In t ts2)) ->
  forall i, In i ids1 <-> In i ids2.
Proof.
  intros Hn H1 H2 E i. rewrite (positions_in _ Hn _ _ H1), (positions_in _ Hn _ _ H2). split; intros (t & j & A & B & C); exists t, j; (split; [apply (E t); [now apply nth_error_In in B|exact A]|auto]).
Qed.
Lemma positions_unique terms : NoDup terms -> forall ts ids1, positions terms ts ids1 -> forall ids2, positions terms ts ids2 -> ids1 = ids2.
Proof.
  intros Hn. induction 1 as [|t ts j ids Hj H IH|t ts ids Ht H IH]; intros ids2 H2; inversion H2; subst; auto.
  - f_equal; [|now apply IH]. f_equal. apply (proj1 (NoDup_nth_error terms) Hn); [apply nth_error_Some; congruence|congruence].
  - match goal with X : ~ In t terms |- _ => destruct X end. now apply nth_error_In in Hj.
  - match goal with X : nth_error terms _ = Some t |- _ => apply nth_error_In in X end. contradiction.
Qed.
Lemma exact_range_unique n P x1 y1 x2 y2 : exact_range n P x1 y1 -> exact_range n P x2 y2 -> x1 = x2 /\ y1 = y2.
Proof.
  intros [A1 B1] [A2 B2].
  pose proof (proj1 (B1 x1 ltac:(lia)) ltac:(lia)) as Px1. pose proof (proj1 (B1 y1 ltac:(lia)) ltac:(lia)) as Py1.
  pose proof (proj1 (B2 x2 ltac:(lia)) ltac:(lia)) as Px2. pose proof (proj1 (B2 y2 ltac:(lia)) ltac:(lia)) as Py2.
  apply B2 in Px1; [|lia]. apply B2 in Py1; [|lia]. apply B1 in Px2; [|lia]. apply B1 in Py2; [|lia]. lia.
Qed.

Section Dict.
  Context (c : collection) (Hwf : wf_collection c) (d : fcd) (Hd : fc_build (terms c) = Ok d).

  (** What parsing two arrangements gives. *)
  Definition same_terms (must : bool) (o1 o2 : option (list nat * nat * nat)) : Prop :=
    match o1, o2 with
    | None, None => True
    | Some (p1, x1, y1), Some (p2, x2, y2) => x1 = x2 /\ y1 = y2 /\ if must then p1 = p2 else forall i, In i p1 <-> In i p2
    | _, _ => False
    end.
  Lemma stored_nodup : NoDup (stored (terms c)).
  Proof. apply NoDup_stored, lex_sorted_NoDup, (wf_terms c Hwf). Qed.
  Lemma terms_alike (must : bool) q1 q2 ts1 ts2 last b1 b2 : query_split q1 ts1 last -> query_split q2 ts2 last ->
    (if must then ts1 = ts2 else forall t, In t (terms c) -> (In t ts1 <-> In t ts2)) -> bufs_ok b1 -> bufs_ok b2 ->
    alike (fun x1 x2 => same_terms must (fst x1) (fst x2) /\ bufs_ok (snd x1) /\ bufs_ok (snd x2)) (query_terms d must q1 b1) (query_terms d must q2 b2).
  Proof.
    intros H1 H2 Hts B1 B2.
    destruct (query_terms_ok c Hwf d Hd must q1 ts1 last b1 H1 B1) as (o1 & b1' & -> & B1' & R1).
    destruct (query_terms_ok c Hwf d Hd must q2 ts2 last b2 H2 B2) as (o2 & b2' & -> & B2' & R2).
    cbn [alike fst snd]. split; [|auto]. pose proof stored_nodup as Hn.
    destruct o1 as [[[p1 x1] y1]|], o2 as [[[p2 x2] y2]|]; cbn [same_terms]; auto.
    - destruct R1 as (_ & P1 & E1), R2 as (_ & P2 & E2). destruct (exact_range_unique _ _ _ _ _ _ E1 E2) as [-> ->]. split; [reflexivity|]. split; [reflexivity|].
      destruct must; [subst ts2; exact (positions_unique _ Hn _ _ P1 _ P2)|apply (positions_set _ _ _ _ _ Hn P1 P2); intros t Ht; apply Hts; now apply stored_In].
    - destruct R1 as (K & _ & [A B]). destruct R2 as [(-> & N)|N]; [subst ts2; apply N; auto|]. apply (N x1); [lia|]. apply B; lia.
    - destruct R2 as (K & _ & [A B]). destruct R1 as [(-> & N)|N]; [subst ts2; apply N; auto|]. apply (N x2); [lia|]. apply B; lia.
  Qed.

  Definition sim1 (s1 s2 : state1) : Prop := s1_pool s1 = s1_pool s2 /\ bufs_ok (s1_bufs s1) /\ bufs_ok (s1_bufs s2).
  Definition sim2 (s1 s2 : state2) : Prop :=
    s2_pool s1 = s2_pool s2 /\ s2_left s1 = s2_left s2 /\ s2_right s1 = s2_right s2 /\ s2_comps s1 = s2_comps s2 /\ s2_sizes s1 = s2_sizes s2 /\
    bufs_ok (s2_bufs s1) /\ bufs_ok (s2_bufs s2).
  Lemma same_empty p1 p2 : (forall i : nat, In i p1 <-> In i p2) -> (length p1 =? 0) = (length p2 =? 0).
  Proof.
    intros H. destruct p1 as [|a p1], p2 as [|b p2]; auto.
    - destruct (proj2 (H b) (or_introl eq_refl)).
    - destruct (proj1 (H a) (or_introl eq_refl)).
  Qed.
  Lemma same_ids p1 p2 : (forall i : nat, In i p1 <-> In i p2) -> deduplicate p1 = deduplicate p2.
  Proof. intros H. exact (proj1 (deduplicate_full p1 p2 H)). Qed.

  Section Requests.
    Context (r1 r2 : request) (Hr : same_known c r1 r2).
    Lemma request_terms b1 b2 : bufs_ok b1 -> bufs_ok b2 -> let must := negb (rq_conj r1) in
      alike (fun x1 x2 => same_terms must (fst x1) (fst x2) /\ bufs_ok (snd x1) /\ bufs_ok (snd x2)) (query_terms d must (rq_text r1) b1) (query_terms d must (rq_text r2) b2).
    Proof.
      intros B1 B2. destruct Hr as (_ & _ & ts1 & ts2 & last & H1 & H2 & H). apply (terms_alike _ _ _ ts1 ts2 last); auto. now destruct (rq_conj r1).
    Qed.
    Lemma request1 (K : containers) (x : index1 K) fuel s1 s2 : a1_dict K x = d -> sim1 s1 s2 -> alike sim1 (ac1_request K x fuel r1 s1) (ac1_request K x fuel r2 s2).
    Proof.
      intros Hx (P & B1 & B2). pose proof (request_terms _ _ B1 B2) as T. cbn zeta in T. destruct Hr as (Ec & Ek & _). unfold ac1_request. rewrite <- Ec, <- Ek. destruct (rq_conj r1); cbn [negb] in T.
      - unfold ac1_conjunctive_topk. rewrite <- P, Hx. apply (alike_bind _ _ _ _ _ _ T). intros (o1 & b1) (o2 & b2) (O & C1 & C2). cbn [fst snd] in *.
        destruct o1 as [[[p1 x1] y1]|], o2 as [[[p2 x2] y2]|]; cbn [same_terms] in O; try contradiction; [|split; auto].
        destruct O as (-> & -> & O). unfold ac1_conjunctive. rewrite (same_empty _ _ O), (same_ids _ _ O). apply alike_same. intros (num & sc). apply alike_same. intros p. split; auto.
      - unfold ac1_prefix_topk. rewrite <- P, Hx. apply (alike_bind _ _ _ _ _ _ T). intros (o1 & b1) (o2 & b2) (O & C1 & C2). cbn [fst snd] in *.
        destruct o1 as [[[p1 x1] y1]|], o2 as [[[p2 x2] y2]|]; cbn [same_terms] in O; try contradiction; [|split; auto].
        destruct O as (-> & -> & ->). apply alike_same. intros [[lo hi]|]; [|split; auto]. apply alike_same. intros (num & sc). apply alike_same. intros p. split; auto.
    Qed.
    Lemma start_alike co s1 s2 : co_dict co = d -> sim2 s1 s2 -> let must := negb (rq_conj r1) in
      alike (fun x1 x2 => same_terms must (fst x1) (fst x2) /\ sim2 (snd x1) (snd x2)) (start co must (rq_text r1) s1) (start co must (rq_text r2) s2).
    Proof.
      intros Hx (P & L & R & C & Z & B1 & B2). cbn zeta. unfold start. rewrite Hx. apply (alike_bind _ _ _ _ _ _ (request_terms _ _ B1 B2)).
      intros (o1 & b1) (o2 & b2) (O & C1 & C2). cbn [fst snd] in *. split; [exact O|]. unfold sim2. cbn. rewrite P. auto 10.
    Qed.
    Lemma finish_alike co num sc s1 s2 : sim2 s1 s2 -> alike sim2 (finish co num sc s1) (finish co num sc s2).
    Proof.
      intros (P & L & R & C & Z & B1 & B2). unfold finish. rewrite <- P, <- C, <- Z. apply alike_same. intros (cs & zs). apply alike_same. intros p. unfold sim2. cbn. auto 10.
    Qed.
    Lemma prefix_alike K co fuel k s1 s2 : rq_conj r1 = false -> co_dict co = d -> sim2 s1 s2 ->
      alike sim2 (core_prefix_topk K co fuel k (rq_text r1) s1) (core_prefix_topk K co fuel k (rq_text r2) s2).
    Proof.
      intros Hc Hx Hs. pose proof (start_alike co s1 s2 Hx Hs) as T. rewrite Hc in T. cbn [negb] in T. unfold core_prefix_topk.
      apply (alike_bind _ _ _ _ _ _ T). intros (o1 & u1) (o2 & u2) (O & Hu). cbn [fst snd] in *.
      destruct o1 as [[[p1 x1] y1]|], o2 as [[[p2 x2] y2]|]; cbn [same_terms] in O; try contradiction; [|exact Hu]. destruct O as (-> & -> & ->).
      pose proof Hu as (P & L & R & C & Z & C1 & C2). rewrite <- L, <- R. apply alike_same. intros (((r & pf) & dl) & dr).
      assert (Hu' : sim2 {| s2_pool := s2_pool u1; s2_bufs := s2_bufs u1; s2_left := dl; s2_right := dr; s2_comps := s2_comps u1; s2_sizes := s2_sizes u1 |}
                         {| s2_pool := s2_pool u2; s2_bufs := s2_bufs u2; s2_left := dl; s2_right := dr; s2_comps := s2_comps u2; s2_sizes := s2_sizes u2 |}).
      { unfold sim2. cbn. auto 10. }
      destruct r as [[lo hi]|]; [|exact Hu']. cbn [s2_pool]. replace (p_scores (s2_pool u2)) with (p_scores (s2_pool u1)) by now rewrite P. apply alike_same. intros (num & sc). apply finish_alike. exact Hu'.
    Qed.
    Lemma request2 (K : containers) (x : index2 K) fuel s1 s2 : co_dict (a2_core K x) = d -> sim2 s1 s2 -> alike sim2 (ac2_request K x fuel r1 s1) (ac2_request K x fuel r2 s2).
    Proof.
      intros Hx Hs. pose proof (start_alike _ s1 s2 Hx Hs) as T. cbn zeta in T. pose proof (fun co k => prefix_alike K co fuel k s1 s2) as HP. destruct Hr as (Ec & Ek & _). unfold ac2_request. rewrite <- Ec, <- Ek.
      destruct (rq_conj r1); cbn [negb] in T; [|unfold ac2_prefix_topk; now apply HP].
      unfold ac2_conjunctive_topk. apply (alike_bind _ _ _ _ _ _ T). intros (o1 & u1) (o2 & u2) (O & Hu). cbn [fst snd] in *.
      destruct o1 as [[[p1 x1] y1]|], o2 as [[[p2 x2] y2]|]; cbn [same_terms] in O; try contradiction; [|exact Hu]. destruct O as (-> & -> & O).
      rewrite (same_empty _ _ O). pose proof Hu as (P & L & R & C & Z & C1 & C2). rewrite <- P, <- C, <- Z. destruct (length p2 =? 0).
      - apply alike_same. intros (num & sc). now apply finish_alike.
      - unfold ac2_conjunctive. rewrite (same_ids _ _ O). apply alike_same. intros (((num & sc) & cs) & zs). apply alike_same. intros p. unfold sim2. cbn. auto 10.
    Qed.
    Lemma request3 (K : containers) (x : index3 K) fuel s1 s2 : co_dict (a3_core K x) = d -> sim2 s1 s2 -> alike sim2 (ac3_request K x fuel r1 s1) (ac3_request K x fuel r2 s2).
    Proof.
      intros Hx Hs. pose proof (start_alike _ s1 s2 Hx Hs) as T. cbn zeta in T. pose proof (fun co k => prefix_alike K co fuel k s1 s2) as HP. destruct Hr as (Ec & Ek & _). unfold ac3_request. rewrite <- Ec, <- Ek.
      destruct (rq_conj r1); cbn [negb] in T; [|unfold ac3_prefix_topk; now apply HP].
      unfold ac3_conjunctive_topk. apply (alike_bind _ _ _ _ _ _ T). intros (o1 & u1) (o2 & u2) (O & Hu). cbn [fst snd] in *.
      destruct o1 as [[[p1 x1] y1]|], o2 as [[[p2 x2] y2]|]; cbn [same_terms] in O; try contradiction; [|exact Hu]. destruct O as (-> & -> & O).
      unfold ac3_conjunctive. rewrite (same_empty _ _ O), (same_ids _ _ O). pose proof Hu as (P & L & R & C & Z & C1 & C2). rewrite <- P.
      apply alike_same. intros (num & sc). now apply finish_alike.
    Qed.
    Lemma request4 (K : bcontainers) (x : index4 K) fuel s1 s2 : co_dict (a4_core x) = d -> sim2 s1 s2 -> alike sim2 (ac4_request K x fuel r1 s1) (ac4_request K x fuel r2 s2).
    Proof.
      intros Hx Hs. pose proof (start_alike _ s1 s2 Hx Hs) as T. cbn zeta in T. pose proof (fun co k => prefix_alike K co fuel k s1 s2) as HP. destruct Hr as (Ec & Ek & _). unfold ac4_request. rewrite <- Ec, <- Ek.
      destruct (rq_conj r1); cbn [negb] in T; [|unfold ac4_prefix_topk; now apply HP].
      unfold ac4_conjunctive_topk. apply (alike_bind _ _ _ _ _ _ T). intros (o1 & u1) (o2 & u2) (O & Hu). cbn [fst snd] in *.
      destruct o1 as [[[p1 x1] y1]|], o2 as [[[p2 x2] y2]|]; cbn [same_terms] in O; try contradiction; [|exact Hu]. destruct O as (-> & -> & O).
      unfold bi_conjunctive. rewrite (same_empty _ _ O), (same_ids _ _ O). pose proof Hu as (P & L & R & C & Z & C1 & C2). rewrite <- P.
      apply alike_same. intros (num & sc). now apply finish_alike.
    Qed.
  End Requests.
End Dict.

Lemma rearranged_known c r1 r2 : rearranged r1 r2 -> same_known c r1 r2.
Proof.
  intros (A & B & ts1 & ts2 & last & C & D & E). split; [exact A|]. split; [exact B|]. exists ts1, ts2, last. split; [exact C|]. split; [exact D|].
  destruct (rq_conj r1); [intros t _; apply E|exact E].
Qed.
Lemma session_alike {St} (Q : request -> request -> Prop) (R : St -> St -> Prop) run results : (forall s1 s2, R s1 s2 -> results s1 = results s2) ->
  (forall r1 r2 s1 s2, Q r1 r2 -> R s1 s2 -> alike R (run r1 s1) (run r2 s2)) ->
  forall rs1 rs2, Forall2 Q rs1 rs2 -> forall s1 s2, R s1 s2 -> alike (fun x1 x2 => fst x1 = fst x2 /\ R (snd x1) (snd x2)) (session run results rs1 s1) (session run results rs2 s2).
Proof.
  intros Hres Hrun. induction 1 as [|r1 r2 rs1 rs2 Hr H IH]; intros s1 s2 Hs; cbn [session]; [split; auto|].
  apply (alike_bind _ _ _ _ _ _ (Hrun r1 r2 s1 s2 Hr Hs)). intros u1 u2 Hu. rewrite (Hres _ _ Hu). apply alike_same. intros out.
  apply (alike_bind _ _ _ _ _ _ (IH u1 u2 Hu)). intros (o1 & v1) (o2 & v2) (E & Hv). cbn [fst snd] in *. subst o2. split; auto.
Qed.
Lemma alike_outs {St} (R : St -> St -> Prop) (r1 r2 : res (list (list (nat * list N)) * St)) :
  alike (fun x1 x2 => fst x1 = fst x2 /\ R (snd x1) (snd x2)) r1 r2 -> (do (outs, s) <- r1; Ok outs) = (do (outs, s) <- r2; Ok outs).
Proof. destruct r1 as [(o1 & s1)| | |], r2 as [(o2 & s2)| | |]; cbn; try contradiction; auto. now intros [-> _]. Qed.
