(** The blocked inverted index: reading blocks and intersecting them. *)
From Coq Require Import Sorted Permutation.
From Verif Require Import Base P_Heap M_Iter S_Iter M_Intersect S_Intersect P_Intersect P_TopKDistinct M_Containers S_Containers M_Blocked S_Blocked P_Blocked P_Auto3.
Local Open Scope nat_scope.

(** * Reading the entries of a block *)
(** The [length R] entries from [i] on are [R], relative to [low]. *)
Definition reads (trm : nat -> res nat) (low i : nat) (R : list nat) : Prop :=
  forall j, j < length R -> exists v, trm (i + j) = Ok v /\ v + low = nth j R 0.

Lemma reads_cons trm low i x R : reads trm low i (x :: R) -> (exists v, trm i = Ok v /\ v + low = x) /\ reads trm low (i + 1) R.
Proof.
  intros H. split.
  - destruct (H 0) as (v & E & Ev); [cbn; lia|]. rewrite Nat.add_0_r in E. eauto.
  - intros j Hj. destruct (H (S j)) as (v & E & Ev); [cbn; lia|]. exists v. split; [|exact Ev]. now replace (i + 1 + j) with (i + S j) by lia.
Qed.

Lemma find_term_ok trm low x : forall R i, reads trm low i R ->
  (~ In x R /\ find_term trm low x i (length R) = Ok None) \/
  (exists R1 R2, R = R1 ++ x :: R2 /\ find_term trm low x i (length R) = Ok (Some (i + length R1, length (x :: R2))) /\
     reads trm low (i + length R1) (x :: R2)).
Proof.
  induction R as [|y R IH]; intros i H; [left; split; [intros []|reflexivity]|].
  destruct (reads_cons _ _ _ _ _ H) as [(v & E & Ev) H']. cbn [length find_term]. rewrite E. cbn [bind]. rewrite Ev.
  destruct (Nat.eqb_spec y x) as [->|Hn].
  - right. exists [], R. cbn [app length]. rewrite Nat.add_0_r. auto.
  - destruct (IH (i + 1) H') as [[A B]|(R1 & R2 & A & B & C)].
    + left. split; [intros [->|H1]; [congruence|contradiction]|exact B].
    + right. exists (y :: R1), R2. rewrite A. cbn [app length]. split; [reflexivity|]. rewrite A in B.
      replace (i + S (length R1)) with (i + 1 + length R1) by lia. split; [exact B|exact C].
Qed.

Lemma increasing_app_inv R1 x R2 : increasing (R1 ++ x :: R2) -> Forall (fun y => y < x) R1 /\ increasing (x :: R2).
Proof.
  induction R1 as [|y R1 IH]; intros H; [split; [constructor|exact H]|]. cbn in H. inversion H as [|? ? A B]; subst.
  destruct (IH A) as [C D]. split; [|exact D]. constructor; [|exact C]. rewrite Forall_forall in B. apply B, in_or_app. right. now left.
Qed.

Lemma all_terms_ok trm low : forall ids R i, increasing ids -> increasing R -> reads trm low i R ->
  all_terms trm low ids i (length R) = Ok (forallb (fun x => memb x R) ids).
Proof.
  induction ids as [|x ids IH]; intros R i Hids HR Hr; [reflexivity|]. inversion Hids as [|? ? Hids' Hx]; subst.
  cbn [all_terms forallb].
  destruct (find_term_ok trm low x R i Hr) as [[A B]|(R1 & R2 & A & B & C)]; rewrite B; cbn [bind].
  - assert (E : memb x R = false) by (apply not_true_iff_false; now rewrite memb_true). now rewrite E.
  - subst R. destruct (increasing_app_inv R1 x R2 HR) as [D F].
    rewrite (IH (x :: R2) _ Hids' F C). f_equal.
    assert (E : memb x (R1 ++ x :: R2) = true) by (apply memb_true, in_or_app; right; now left). rewrite E. cbn [andb].
    assert (G : forall l, Forall (fun y => x < y) l -> forallb (fun y => memb y (x :: R2)) l = forallb (fun y => memb y (R1 ++ x :: R2)) l).
    { induction l as [|y l IHl]; intros Hl; [reflexivity|]. inversion Hl as [|? ? Hy Hl']; subst. cbn [forallb]. rewrite (IHl Hl'). f_equal.
      apply eq_true_iff_eq. rewrite !memb_true, in_app_iff. split; [auto|]. intros [Hin|Hin]; [|exact Hin].
      rewrite Forall_forall in D. specialize (D y Hin). lia. }
    apply G. exact Hx.
Qed.

Lemma check_terms_ok trm low rb re : forall R i, increasing R -> reads trm low i R ->
  check_terms trm low rb re i (length R) = Ok (existsb (fun t => (rb <=? t) && (t <=? re)) R).
Proof.
  induction R as [|y R IH]; intros i HR H; [reflexivity|]. destruct (reads_cons _ _ _ _ _ H) as [(v & E & Ev) H'].
  inversion HR as [|? ? HR' Hy]; subst. cbn [length check_terms existsb]. rewrite E. cbn [bind].
  destruct (Nat.ltb_spec re (v + low)) as [L|L].
  - assert (G : existsb (fun t => (rb <=? t) && (t <=? re)) R = false).
    { apply not_true_iff_false. rewrite existsb_exists. intros (t & Ht & B). apply andb_true_iff in B. destruct B as [_ B]. apply Nat.leb_le in B.
      rewrite Forall_forall in Hy. specialize (Hy t Ht). lia. }
    rewrite G. destruct (Nat.leb_spec (v + low) re); [lia|]. now rewrite andb_false_r.
  - destruct ((rb <=? v + low) && (v + low <=? re)); [reflexivity|]. cbn [orb]. now apply IH.
Qed.

Lemma first_geq_mono l lb lb' : lb <= lb' -> first_geq l lb <= first_geq l lb'.
Proof.
  intros H. induction l as [|x l IH]; [reflexivity|]. cbn. destruct (Nat.leb_spec lb x); [lia|]. destruct (Nat.leb_spec lb' x); lia.
Qed.
Lemma first_geq_le l lb : first_geq l lb <= length l.
Proof. induction l as [|x l IH]; cbn; [lia|]. destruct (lb <=? x); lia. Qed.
Lemma first_geq_nth l p u : increasing l -> p < length l -> first_geq l (nth p l u) = p.
Proof.
  intros H. revert p. induction H as [|x l H IH Hx]; intros p Hp; [cbn in Hp; lia|]. destruct p as [|p]; cbn.
  - now rewrite Nat.leb_refl.
  - cbn in Hp. rewrite Forall_forall in Hx. assert (Hpl : p < length l) by lia. pose proof (Hx (nth p l u) (nth_In _ _ Hpl)).
    destruct (Nat.leb_spec (nth p l u) x); [lia|]. f_equal. apply IH. lia.
Qed.
Lemma first_geq_stop l p lb u : increasing l -> p < length l -> p <= first_geq l lb -> lb <= nth p l u -> p = first_geq l lb.
Proof.
  intros Hi Hp Hle Hlb. pose proof (first_geq_mono l lb (nth p l u) Hlb). rewrite (first_geq_nth l p u Hi Hp) in H. lia.
Qed.

(** * Blocks *)
Section View.
  Variable K : bcontainers.
  Variable ii : bindex K.
  Let u := bi_docs_num K ii.
  Let ops := k_ops K u.
  Variable at_ : k_It K -> list nat -> nat -> Prop.
  Hypothesis Hcur : cursor ops u at_.
  Hypothesis Hpos : forall it l p, at_ it l p -> b_position K it = p.

  (** What a block contains: doc ids, for each its terms; and the terms looked for. *)
  Record view := { v_docs : list nat; v_set : nat -> list nat; v_ids : list nat }.
  Definition view_ok (v : view) : Prop := increasing (v_ids v) /\ forall d, increasing (v_set v d).

  Definition data_ok (v : view) (b : block K) : Prop :=
    view_ok v /\ bk_ids K b = v_ids v /\
    forall q, q < length (v_docs v) -> exists beg,
      bk_off K b q = Ok beg /\ bk_off K b (q + 1) = Ok (beg + length (v_set v (nth q (v_docs v) 0))) /\
      reads (bk_trm K b) (bk_low K b) beg (v_set v (nth q (v_docs v) 0)).
  Definition at_block (b : block K) (v : view) (p : nat) : Prop := data_ok v b /\ at_ (bk_docs K b) (v_docs v) p.

  Lemma with_docs_ok b v p it p' : at_block b v p -> at_ it (v_docs v) p' -> at_block (with_docs K b it) v p'.
  Proof. intros [H _] H'. split; [exact H|exact H']. Qed.

  (** Document [d] has all the terms looked for. *)
  Definition matches (v : view) (d : nat) : bool := forallb (fun x => memb x (v_set v d)) (v_ids v).
  Definition hits (rb re : nat) (v : view) (d : nat) : bool := existsb (fun t => (rb <=? t) && (t <=? re)) (v_set v d).

  Lemma matches_true v d : matches v d = true <-> forall x, In x (v_ids v) -> In x (v_set v d).
  Proof.
    unfold matches. rewrite forallb_forall. split; intros H x Hx; [apply memb_true, H, Hx|apply memb_true; now apply H].
  Qed.

  Lemma block_in_ok b v p : at_block b v p ->
    block_in K ii b = Ok ((p <? length (v_docs v)) && matches v (nth p (v_docs v) 0)).
  Proof.
    intros [(Hv & Hids & Hd) Ha]. destruct (Hcur _ _ _ Ha) as (_ & _ & Hp & _ & Hsz & _). unfold block_in.
    rewrite (Hpos _ _ _ Ha). fold u. fold ops. rewrite Hsz. destruct (Nat.eqb_spec p (length (v_docs v))) as [E|E].
    - destruct (Nat.ltb_spec p (length (v_docs v))); [lia|reflexivity].
    - destruct (Nat.ltb_spec p (length (v_docs v))); [|lia]. cbn [andb].
      destruct (Hd p H) as (beg & E1 & E2 & Hr). rewrite E1. cbn [bind]. rewrite E2. cbn [bind].
      set (R := v_set v (nth p (v_docs v) 0)) in *.
      destruct (Nat.ltb_spec (beg + length R) beg); [lia|]. replace (beg + length R - beg) with (length R) by lia. rewrite Hids.
      destruct Hv as [Hv1 Hv2].
      destruct (Nat.ltb_spec (length R) (length (v_ids v))) as [L|L].
      + f_equal. symmetry. apply not_true_iff_false. rewrite matches_true. intros Hall.
        pose proof (NoDup_incl_length (increasing_nodup _ Hv1) Hall). unfold R in L. lia.
      + rewrite all_terms_ok; auto. apply Hv2.
  Qed.

  Lemma check_ok rb re b v p : at_block b v p -> p < length (v_docs v) -> check K rb re b = Ok (hits rb re v (nth p (v_docs v) 0)).
  Proof.
    intros [(Hv & Hids & Hd) Ha] Hp. unfold check. rewrite (Hpos _ _ _ Ha).
    destruct (Hd p Hp) as (beg & E1 & E2 & Hr). rewrite E1. cbn [bind]. rewrite E2. cbn [bind].
    set (R := v_set v (nth p (v_docs v) 0)) in *.
    destruct (Nat.ltb_spec (beg + length R) beg); [lia|]. replace (beg + length R - beg) with (length R) by lia.
    apply check_terms_ok; [apply Hv|exact Hr].
  Qed.

  Lemma scan_ok fuel lb it l p : at_ it l p -> p <= first_geq l lb -> length l < fuel ->
    exists it', next_geq_by_scan K ii fuel lb it = Ok it' /\ at_ it' l (first_geq l lb).
  Proof.
    intros Ha Hp Hf. unfold next_geq_by_scan.
    apply (loop_ok_n (scan_step K ii lb) (fun n it => exists p, at_ it l p /\ p <= first_geq l lb /\ n = length l - p)
             (fun it' => at_ it' l (first_geq l lb))) with (n := length l - p); [| |lia].
    - intros n it1 (p1 & Ha1 & Hp1 & ->). destruct (Hcur _ _ _ Ha1) as (Hi & Hu & Hpl & _ & _ & Hn & Hd & Hnx & _).
      unfold scan_step. fold u. fold ops. rewrite Hn, Hd. destruct (Nat.ltb_spec p1 (length l)) as [L|L].
      + destruct (Nat.leb_spec lb (nth p1 l u)) as [L2|L2].
        * now rewrite <- (first_geq_stop l p1 lb u Hi L Hp1 L2).
        * destruct (Hnx L) as (it2 & E & Ha2). rewrite E. cbn [bind]. exists (length l - (p1 + 1)). split; [lia|].
          exists (p1 + 1). split; [exact Ha2|]. split; [|reflexivity]. pose proof (first_geq_gt l p1 lb u Hi L L2). lia.
      + assert (p1 = first_geq l lb) by (pose proof (first_geq_le l lb); lia). now subst p1.
    - exists p. auto.
  Qed.

  (** * The intersection *)
  Variable vs : list view.

  Definition sees (bs : list (block K)) (c : nat) : Prop :=
    Forall2 (fun b v => exists p, at_block b v p /\ p <= first_geq (v_docs v) c) bs vs.

  Definition in_all (d : nat) : Prop := Forall (fun v => In d (v_docs v) /\ matches v d = true) vs.

  Lemma sees_nth bs c j b : sees bs c -> nth_error bs j = Some b ->
    exists v p, nth_error vs j = Some v /\ at_block b v p /\ p <= first_geq (v_docs v) c.
  Proof.
    unfold sees. intros H. revert j. induction H as [|a x q L Hab HF IH]; intros j Hj; [destruct j; discriminate|].
    destruct j as [|j]; cbn in *; [|now apply IH]. injection Hj as <-. destruct Hab as (p & Hp). eauto.
  Qed.
  Lemma sees_upd bs c j b v p : sees bs c -> nth_error vs j = Some v -> at_block b v p -> p <= first_geq (v_docs v) c -> sees (upd bs j b) c.
  Proof.
    unfold sees. intros H. revert j. induction H as [|a x q L Hab HF IH]; intros j Hj Ha Hp; [constructor|].
    destruct j as [|j]; cbn in *.
    - injection Hj as ->. constructor; [eauto|assumption].
    - constructor; [assumption|]. now apply IH.
  Qed.
  Lemma sees_mono bs c c' : c <= c' -> sees bs c -> sees bs c'.
  Proof.
    intros Hc H. unfold sees in *. induction H as [|a x q L Hab HF IH]; constructor; auto.
    destruct Hab as (p & Ha & Hp). exists p. split; [exact Ha|]. pose proof (first_geq_mono (v_docs x) c c' Hc). lia.
  Qed.
  Lemma sees_len bs c : sees bs c -> length bs = length vs.
  Proof. apply Forall2_len. Qed.

  (** The blocks before [n] stand at [c], which has the terms. *)
  Definition agreed (bs : list (block K)) (n c : nat) : Prop :=
    forall j b v, j < n -> nth_error bs j = Some b -> nth_error vs j = Some v ->
      exists p, at_block b v p /\ p < length (v_docs v) /\ nth p (v_docs v) 0 = c /\ matches v c = true.

  Lemma agreed_all bs c : length bs = length vs -> agreed bs (length bs) c -> in_all c.
  Proof.
    intros Hl H. apply Forall_forall. intros v Hv. apply In_nth_error in Hv. destruct Hv as [j Hj].
    assert (j < length bs) by (rewrite Hl; apply nth_error_Some; congruence).
    destruct (get_some bs j H0) as (b & Eb & _). destruct (H j b v H0 Eb Hj) as (p & _ & Hp & E & Hm). split; [|exact Hm].
    rewrite <- E. now apply nth_In.
  Qed.

  Definition mx_inv (c0 n : nat) (x : binter K) : Prop :=
    sees (y_blocks K x) (y_cand K x) /\ y_i K x <= length vs /\ c0 <= y_cand K x <= u + 1 /\
    (forall d, in_all d -> c0 <= d -> y_cand K x <= d) /\
    agreed (y_blocks K x) (y_i K x) (y_cand K x) /\
    n = (u + 1 - y_cand K x) * (length vs + 1) + (length vs - y_i K x).

  Definition mx_post (c0 : nat) (x : binter K) : Prop :=
    sees (y_blocks K x) (y_cand K x) /\ c0 <= y_cand K x /\ (forall d, in_all d -> c0 <= d -> y_cand K x <= d) /\
    (y_cand K x < u -> agreed (y_blocks K x) (length vs) (y_cand K x)).

  Lemma multi_step_ok fuel c0 n x : (forall v, In v vs -> length (v_docs v) < fuel) -> mx_inv c0 n x ->
    match multi_step K ii fuel x with
    | Ok (inl x') => exists n', n' < n /\ mx_inv c0 n' x'
    | Ok (inr x') => mx_post c0 x'
    | _ => False
    end.
  Proof.
    intros Hf. destruct x as [c i bs]. cbn [y_cand y_i y_blocks]. intros (Hs & Hi & Hc & Hlow & Hag & Hn).
    unfold multi_step. fold u. fold ops. cbn [y_cand y_i y_blocks] in *. pose proof (sees_len bs c Hs) as Hlen.
    destruct (Nat.ltb_spec c u) as [Lc|Lc]; cbn [andb].
    2:{ split; [exact Hs|]. cbn [y_cand y_blocks]. split; [lia|]. split; [exact Hlow|]. lia. }
    destruct (Nat.eqb_spec i (length bs)) as [Ei|Ei]; cbn [negb].
    { split; [exact Hs|]. cbn [y_cand y_blocks]. split; [lia|]. split; [exact Hlow|]. intros _. rewrite <- Hlen, <- Ei. exact Hag. }
    destruct (get_some bs i) as (b & Eb & Gb); [lia|]. rewrite Gb. cbn [bind].
    destruct (sees_nth bs c i b Hs Eb) as (v & p & Ev & Hab & Hp).
    destruct (scan_ok fuel c (bk_docs K b) (v_docs v) p (proj2 Hab) Hp) as (it & Es & Hit).
    { apply Hf. eapply nth_error_In; exact Ev. }
    rewrite Es. cbn [bind]. set (p' := first_geq (v_docs v) c) in *.
    assert (Hab' : at_block (with_docs K b it) v p') by (eapply with_docs_ok; eauto).
    rewrite (block_in_ok _ v p' Hab'). cbn [bind].
    destruct (Hcur it _ _ Hit) as (Hinc & Hu & Hp' & _ & _ & _ & Hd & _).
    destruct (first_geq_val u (v_docs v) c Hinc Hu ltac:(lia)) as (A & B & C). cbv zeta in A, B, C. fold p' in A, B, C.
    rewrite <- Hd in A, B, C. set (w := i_deref ops it) in *.
    assert (Hge : forall d, in_all d -> c0 <= d -> w <= d).
    { intros d Hd' Hcd. apply B; [|now apply Hlow]. unfold in_all in Hd'. rewrite Forall_forall in Hd'.
      apply (Hd' v). eapply nth_error_In; exact Ev. }
    assert (Hs' : sees (upd bs i (with_docs K b it)) c) by exact (sees_upd bs c i _ v p' Hs Ev Hab' (le_n _)).
    destruct (p' <? length (v_docs v)) eqn:Ep.
    - apply Nat.ltb_lt in Ep. assert (Ew : nth p' (v_docs v) 0 = w).
      { rewrite Hd. now apply nth_indep. }
      rewrite Ew. cbn [andb]. destruct (matches v w) eqn:Em.
      + rewrite andb_true_r. destruct (Nat.eqb_spec w c) as [Ewc|Ewc].
        * eexists. split; [|split; [exact Hs'|]]; cbn [y_cand y_i y_blocks]; [|split; [lia|]; split; [lia|]; split; [exact Hlow|]; split; [|reflexivity]].
          -- lia.
          -- intros j b' v' Hj Ej Evj. destruct (Nat.eq_dec j i) as [->|Hji].
             ++ rewrite upd_same in Ej by lia. assert (b' = with_docs K b it) by congruence. assert (v' = v) by congruence. subst b' v'.
                exists p'. split; [exact Hab'|]. split; [exact Ep|]. split; congruence.
             ++ rewrite upd_other in Ej by lia. apply (Hag j b' v'); [lia|exact Ej|exact Evj].
        * rewrite Nat.add_0_r. eexists. split; [|split; [apply (sees_mono _ c); [cbn [y_cand]; lia|exact Hs']|]]; cbn [y_cand y_i y_blocks];
            [|split; [lia|]; split; [lia|]; split; [exact Hge|]; split; [|reflexivity]].
          -- nia.
          -- intros j b' v' Hj. lia.
      + rewrite andb_false_r. eexists. split; [|split; [apply (sees_mono _ c); [cbn [y_cand]; lia|exact Hs']|]]; cbn [y_cand y_i y_blocks];
          [|split; [lia|]; split; [|split; [|split; [|reflexivity]]]].
        * assert (w < u) by (rewrite Hd; rewrite Forall_forall in Hu; apply Hu, nth_In; lia). nia.
        * lia.
        * intros d Hd' Hcd. specialize (Hge d Hd' Hcd). assert (d <> w); [|lia]. intros ->. unfold in_all in Hd'. rewrite Forall_forall in Hd'.
          destruct (Hd' v (nth_error_In _ _ Ev)) as [_ D]. congruence.
        * intros j b' v' Hj. lia.
    - apply Nat.ltb_ge in Ep. cbn [andb]. rewrite andb_false_r.
      assert (Ew : w = u) by (rewrite Hd; apply nth_overflow; exact Ep).
      eexists. split; [|split; [apply (sees_mono _ c); [cbn [y_cand]; lia|exact Hs']|]]; cbn [y_cand y_i y_blocks];
          [|split; [lia|]; split; [|split; [|split; [|reflexivity]]]].
      * nia.
      * lia.
      * intros d Hd' Hcd. specialize (Hge d Hd' Hcd). unfold in_all in Hd'. rewrite Forall_forall in Hd'.
        destruct (Hd' v (nth_error_In _ _ Ev)) as [D _]. rewrite Forall_forall in Hu. specialize (Hu d D). lia.
      * intros j b' v' Hj. lia.
  Qed.

  Variable fuel : nat.
  Hypothesis Hfuel : (u + 2) * (length vs + 1) < fuel.
  Hypothesis Hfd : forall v, In v vs -> length (v_docs v) < fuel.

  Lemma multi_next_ok c0 x : length vs <> 1 ->
    sees (y_blocks K x) (y_cand K x) -> y_i K x = 0 -> c0 <= y_cand K x <= u + 1 ->
    (forall d, in_all d -> c0 <= d -> y_cand K x <= d) ->
    exists x', binter_next K ii fuel x = Ok x' /\ mx_post c0 x'.
  Proof.
    intros H1 H2 H3 H4 H5. unfold binter_next. rewrite (sees_len _ _ H2). destruct (Nat.eqb_spec (length vs) 1); [lia|].
    apply (loop_ok_n (multi_step K ii fuel) (mx_inv c0) (mx_post c0)) with
      (n := (u + 1 - y_cand K x) * (length vs + 1) + (length vs - y_i K x)).
    - intros n0 s Hs. now apply multi_step_ok.
    - unfold mx_inv. rewrite H3. repeat split; auto; try lia. intros j b v Hj. lia.
    - nia.
  Qed.

  Lemma multi_yields : 2 <= length vs -> forall R x,
    increasing R -> sees (y_blocks K x) (y_cand K x) ->
    (forall d, In d R <-> in_all d /\ y_cand K x <= d) ->
    (y_cand K x < u -> agreed (y_blocks K x) (length vs) (y_cand K x)) ->
    yields (binter_stream K ii fuel) x R.
  Proof.
    intros Hvs. induction R as [|d R IH]; intros x Hinc Hs HR Hag; cbn [yields].
    - cbn. fold u. apply Nat.ltb_ge. destruct (Nat.lt_ge_cases (y_cand K x) u) as [L|L]; [|exact L]. exfalso.
      apply (HR (y_cand K x)). split; [|lia]. pose proof (sees_len _ _ Hs). apply (agreed_all (y_blocks K x)); [assumption|]. rewrite H. auto.
    - inversion Hinc as [|? ? HincR Hd]; subst. pose proof (sees_len _ _ Hs) as Hlen.
      destruct (proj1 (HR d) (or_introl eq_refl)) as [Hcd Hle].
      assert (Hfirst : exists b, nth_error (y_blocks K x) 0 = Some b).
      { destruct (get_some (y_blocks K x) 0) as (b & Eb & _); [lia|eauto]. }
      destruct Hfirst as (b & Eb). destruct (sees_nth _ _ 0 b Hs Eb) as (v & p0 & Ev & Hab0 & _).
      destruct (Hcur _ _ _ (proj2 Hab0)) as (Hi & Hu & _).
      assert (Hdu : d < u).
      { unfold in_all in Hcd. rewrite Forall_forall in Hcd, Hu. apply Hu, (Hcd v). eapply nth_error_In; exact Ev. }
      assert (Ecand : y_cand K x = d).
      { assert (Hcc : in_all (y_cand K x)) by (apply (agreed_all (y_blocks K x)); [assumption|rewrite Hlen; apply Hag; lia]).
        assert (Hin : In (y_cand K x) (d :: R)) by (apply HR; split; [exact Hcc|lia]).
        destruct Hin as [<-|Hin]; [reflexivity|]. rewrite Forall_forall in Hd. specialize (Hd _ Hin). lia. }
      split; [cbn; fold u; apply Nat.ltb_lt; lia|]. split; [exact Ecand|].
      destruct (Hag ltac:(lia) 0 b v ltac:(lia) Eb Ev) as (p & Hab & Hp & Ep & _).
      destruct (Hcur _ _ _ (proj2 Hab)) as (_ & _ & _ & _ & _ & _ & _ & Hnx & _).
      destruct (Hnx Hp) as (it1 & En & Hat1). destruct (Hcur _ _ _ Hat1) as (_ & _ & Hp1 & _ & _ & _ & Hd1 & _).
      cbn [s_next binter_stream]. unfold binter_incr. fold u. fold ops. rewrite Hlen.
      destruct (Nat.ltb_spec 1 (length vs)) as [_|]; [|lia].
      rewrite (get_ok _ 0 b Eb). cbn [bind]. rewrite En. cbn [bind y_cand y_blocks].
      assert (Hgt : d < i_deref ops it1 <= u).
      { rewrite Hd1. destruct (Nat.lt_ge_cases (p + 1) (length (v_docs v))) as [L|L].
        - assert (Hin : nth (p + 1) (v_docs v) u < u) by (rewrite Forall_forall in Hu; apply Hu, nth_In; lia).
          split; [|lia]. rewrite <- Ecand, <- Ep. rewrite (nth_indep _ u 0) by lia. apply increasing_nth_lt; [exact Hi|lia].
        - rewrite nth_overflow by lia. lia. }
      assert (Hp1' : p + 1 <= first_geq (v_docs v) (i_deref ops it1)).
      { assert (p < first_geq (v_docs v) (i_deref ops it1)); [|lia]. apply (first_geq_gt _ p _ 0 Hi Hp). lia. }
      destruct (multi_next_ok (i_deref ops it1)
        {| y_cand := i_deref ops it1; y_i := 0; y_blocks := upd (y_blocks K x) 0 (with_docs K b it1) |}) as (x' & Ex & P1 & P2 & P3 & P4);
        cbn [y_cand y_i y_blocks].
      + lia.
      + eapply sees_upd; [apply (sees_mono _ (y_cand K x)); [lia|exact Hs]|exact Ev|eapply with_docs_ok; eauto|exact Hp1'].
      + reflexivity.
      + lia.
      + auto.
      + exists x'. split; [exact Ex|]. apply IH; auto.
        intros e. split.
        * intros He. destruct (proj1 (HR e) (or_intror He)) as [Hce _]. split; [exact Hce|].
          apply P3; [exact Hce|].
          rewrite Forall_forall in Hd. specialize (Hd e He).
          assert (Hel : In e (v_docs v)) by (unfold in_all in Hce; rewrite Forall_forall in Hce; apply (Hce v); eapply nth_error_In; exact Ev).
          destruct (increasing_in_ge (v_docs v) p 0 e Hi Hp Hel) as [H|H]; [lia|].
          rewrite Hd1. now apply increasing_skip_ge.
        * intros [Hce Hle']. destruct (proj2 (HR e)) as [H|H]; [split; [exact Hce|lia]| |exact H]. lia.
  Qed.

  (** A single block: the documents after the current one. *)
  Lemma single_next_ok v b p c : vs = [v] -> at_block b v p -> c = nth p (v_docs v) u ->
    forall i0, i0 = 0 ->
    exists x', binter_next K ii fuel {| y_cand := c; y_i := i0; y_blocks := [b] |} = Ok x' /\
      exists b' p', y_blocks K x' = [b'] /\ at_block b' v p' /\ y_cand K x' = nth p' (v_docs v) u /\
        filter (matches v) (skipn (p + 1) (v_docs v)) =
          if p' <? length (v_docs v) then nth p' (v_docs v) 0 :: filter (matches v) (skipn (p' + 1) (v_docs v)) else [].
  Proof.
    intros Hvs Hab Hc i0 ->. unfold binter_next. cbn [y_blocks length Nat.eqb].
    destruct (loop_ok_n (single_step K ii)
      (fun n x => exists b1 p1, y_blocks K x = [b1] /\ at_block b1 v p1 /\ y_cand K x = nth p1 (v_docs v) u /\ p1 <= length (v_docs v) /\
         ((y_i K x = 0 /\ filter (matches v) (skipn (p1 + 1) (v_docs v)) = filter (matches v) (skipn (p + 1) (v_docs v)) /\ n = 1 + (length (v_docs v) - p1)) \/
          (y_i K x = 1 /\ n = 0 /\ p1 < length (v_docs v) /\
           filter (matches v) (skipn (p + 1) (v_docs v)) = nth p1 (v_docs v) 0 :: filter (matches v) (skipn (p1 + 1) (v_docs v)))))
      (fun x => exists b' p', y_blocks K x = [b'] /\ at_block b' v p' /\ y_cand K x = nth p' (v_docs v) u /\
        filter (matches v) (skipn (p + 1) (v_docs v)) =
          if p' <? length (v_docs v) then nth p' (v_docs v) 0 :: filter (matches v) (skipn (p' + 1) (v_docs v)) else []))
      with (fuel := fuel) (n := 1 + (length (v_docs v) - p)) (s := {| y_cand := c; y_i := 0; y_blocks := [b] |}) as (x' & E & H).
    - intros n x (b1 & p1 & Eb & Hab1 & Ec & Hp1 & Hd). unfold single_step. fold u. fold ops. rewrite Eb, Ec.
      destruct (Hcur _ _ _ (proj2 Hab1)) as (Hi & Hu & _ & _ & _ & _ & _ & Hnx & _).
      destruct (Nat.ltb_spec (nth p1 (v_docs v) u) u) as [L|L]; cbn [andb].
      2:{ exists b1, p1. assert (p1 = length (v_docs v)).
          { destruct (Nat.lt_ge_cases p1 (length (v_docs v))) as [L2|]; [|lia]. rewrite Forall_forall in Hu.
            pose proof (Hu _ (nth_In _ u L2)). lia. }
          split; [exact Eb|]. split; [exact Hab1|]. split; [exact Ec|].
          destruct (Nat.ltb_spec p1 (length (v_docs v))); [lia|]. destruct Hd as [(_ & A & _)|(_ & _ & A & _)]; [|lia].
          rewrite <- A. now rewrite skipn_all2 by lia. }
      assert (Hp1l : p1 < length (v_docs v)).
      { destruct (Nat.lt_ge_cases p1 (length (v_docs v))); [assumption|]. rewrite nth_overflow in L by lia. lia. }
      destruct Hd as [(Ei & Hfl & Hn)|(Ei & Hn & _ & Hfl)]; rewrite Ei; cbn [length Nat.eqb negb].
      2:{ exists b1, p1. split; [exact Eb|]. split; [exact Hab1|]. split; [exact Ec|].
          destruct (Nat.ltb_spec p1 (length (v_docs v))); [exact Hfl|lia]. }
      cbn [get nth_error bind]. destruct (Hnx Hp1l) as (it & En & Hit). rewrite En. cbn [bind].
      assert (Hab2 : at_block (with_docs K b1 it) v (p1 + 1)) by (eapply with_docs_ok; eauto).
      rewrite (block_in_ok _ v _ Hab2). cbn [bind upd].
      destruct (Hcur _ _ _ Hit) as (_ & _ & Hp2 & _ & _ & _ & Hd2 & _).
      destruct (Nat.ltb_spec (p1 + 1) (length (v_docs v))) as [L2|L2]; cbn [andb].
      + rewrite (skipn_head (v_docs v) (p1 + 1) 0 L2) in Hfl. cbn [filter] in Hfl.
        destruct (matches v (nth (p1 + 1) (v_docs v) 0)) eqn:Em.
        * exists 0. split; [lia|]. exists (with_docs K b1 it), (p1 + 1). cbn [y_blocks y_cand y_i].
          split; [reflexivity|]. split; [exact Hab2|]. split; [exact Hd2|]. split; [lia|]. right. auto.
        * exists (1 + (length (v_docs v) - (p1 + 1))). split; [lia|]. exists (with_docs K b1 it), (p1 + 1). cbn [y_blocks y_cand y_i].
          split; [reflexivity|]. split; [exact Hab2|]. split; [exact Hd2|]. split; [lia|]. left. auto.
      + exists (1 + (length (v_docs v) - (p1 + 1))). split; [lia|]. exists (with_docs K b1 it), (p1 + 1). cbn [y_blocks y_cand y_i].
        split; [reflexivity|]. split; [exact Hab2|]. split; [exact Hd2|]. split; [lia|]. left. split; [reflexivity|]. split; [|reflexivity].
        rewrite <- Hfl. now rewrite !skipn_all2 by lia.
    - exists b, p. cbn [y_blocks y_cand y_i]. destruct (Hcur _ _ _ (proj2 Hab)) as (_ & _ & Hp & _). auto 10.
    - pose proof (Hfd v) as H. rewrite Hvs in H, Hfuel. specialize (H (or_introl eq_refl)). cbn in Hfuel. unfold view_ok in *.
      destruct (Hcur _ _ _ (proj2 Hab)) as (Hi & Hu & _).
      assert (length (v_docs v) <= u).
      { rewrite <- (seq_length u 0). apply NoDup_incl_length; [now apply increasing_nodup|]. intros y Hy. apply in_seq.
        rewrite Forall_forall in Hu. specialize (Hu y Hy). lia. }
      lia.
    - exists x'. auto.
  Qed.

  Lemma single_yields v : vs = [v] -> forall n b p i, n = length (v_docs v) - p -> at_block b v p -> p < length (v_docs v) ->
    exists x', binter_incr K ii fuel {| y_cand := nth p (v_docs v) u; y_i := i; y_blocks := [b] |} = Ok x' /\
      yields (binter_stream K ii fuel) x' (filter (matches v) (skipn (p + 1) (v_docs v))).
  Proof.
    intros Hvs n. induction n as [n IH] using lt_wf_ind. intros b p i -> Hab Hp.
    unfold binter_incr. cbn [y_blocks length Nat.ltb Nat.leb bind y_cand].
    destruct (single_next_ok v b p _ Hvs Hab eq_refl 0 eq_refl) as (x' & E & b' & p' & Eb & Hab' & Ec & Hfl).
    exists x'. split; [exact E|]. rewrite Hfl. destruct (Hcur _ _ _ (proj2 Hab')) as (Hi & Hu & Hp' & _).
    destruct (Nat.ltb_spec p' (length (v_docs v))) as [L|L]; cbn [yields].
    - assert (Hlt : nth p' (v_docs v) u < u) by (rewrite Forall_forall in Hu; apply Hu; now apply nth_In).
      split; [cbn; fold u; rewrite Ec; now apply Nat.ltb_lt|]. split; [cbn; rewrite Ec; now apply nth_indep|].
      assert (Hpp : p < p').
      { assert (Hin : In (nth p' (v_docs v) 0) (filter (matches v) (skipn (p + 1) (v_docs v)))) by (rewrite Hfl; now left).
        apply filter_In in Hin. destruct Hin as [Hin _].
        apply (In_nth _ _ 0) in Hin. destruct Hin as (j & Hj & Ej). rewrite skipn_length in Hj.
        assert (Ej' : nth (p + 1 + j) (v_docs v) 0 = nth p' (v_docs v) 0).
        { rewrite <- Ej. symmetry. apply nth_error_nth. rewrite nth_error_skipn. apply nth_error_nth'. lia. }
        destruct (Nat.lt_ge_cases p p'); [assumption|]. exfalso.
        pose proof (increasing_nth_lt (v_docs v) p' (p + 1 + j) Hi ltac:(lia)). lia. }
      destruct (IH (length (v_docs v) - p') ltac:(lia) b' p' (y_i K x') eq_refl Hab' L) as (x2 & E2 & Y2).
      exists x2. split; [|exact Y2]. cbn [s_next binter_stream]. destruct x' as [cx ix bx]. cbn in Eb, Ec, E2 |- *. now subst.
    - cbn. fold u. rewrite Ec. apply Nat.ltb_ge. now rewrite nth_overflow by lia.
  Qed.
End View.
