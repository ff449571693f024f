(** Any number of interleaved threads. *)
From Verif Require Import Base M_Conc P_Conc.
Local Open Scope nat_scope.

(** * Runs of one thread and of all *)
Inductive solo {A} : memory -> prog A -> memory -> prog A -> Prop :=
| so_here m p : solo m p m p
| so_step m p m' p' m'' p'' : astep m p = Some (m', p') -> solo m' p' m'' p'' -> solo m p m'' p''.
Lemma solo_trans {A} m (p : prog A) m' p' : solo m p m' p' -> forall m'' p'', solo m' p' m'' p'' -> solo m p m'' p''.
Proof. induction 1 as [|m p m1 p1 m2 p2 E H IH]; intros m'' p'' H2; [exact H2|]. eapply so_step; [exact E|]. now apply IH. Qed.
Lemma solo_alone {A} (p : prog A) : forall m a m', alone m p = Ok (a, m') -> solo m p m' (Ret (Ok a)).
Proof.
  induction p as [r|b off x k IH|b off k IH]; intros m a m' E; cbn [alone] in E.
  - destruct r; cbn [bind] in E; try discriminate. injection E as <- <-. constructor.
  - destruct (off <? length (arr m b)) eqn:Eo; [|discriminate]. eapply so_step; [cbn [astep]; rewrite Eo; reflexivity|]. now apply IH.
  - destruct (nth_error (arr m b) off) as [x|] eqn:Eo; [|discriminate]. eapply so_step; [cbn [astep]; rewrite Eo; reflexivity|]. now apply IH.
Qed.
Lemma astep_pbind {A B} (p : prog A) (f : A -> prog B) m m' p' : astep m p = Some (m', p') -> astep m (pbind p f) = Some (m', pbind p' f).
Proof.
  destruct p as [r|b off x k|b off k]; cbn [astep pbind]; [discriminate| |]; intros E; injection E as E.
  - destruct (off <? length (arr m b)); injection E as <- <-; reflexivity.
  - destruct (nth_error (arr m b) off); injection E as <- <-; reflexivity.
Qed.
Lemma solo_pbind {A B} (f : A -> prog B) m p m' p' : solo m p m' p' -> solo m (pbind p f) m' (pbind p' f).
Proof. induction 1 as [|m p m1 p1 m2 p2 E H IH]; [constructor|]. eapply so_step; [apply (astep_pbind p f _ _ _ E)|exact IH]. Qed.
Lemma astep_shape {A} (p : prog A) m m' p' : astep m p = Some (m', p') -> map (@length N) m' = map (@length N) m.
Proof.
  destruct p as [r|b off x k|b off k]; cbn [astep]; [discriminate| |]; intros E; injection E as E.
  - destruct (off <? length (arr m b)); injection E as <- <-; [|reflexivity]. apply nth_ext with (d := 0) (d' := 0); [now rewrite !map_length, upd_length|].
    intros i _. change 0 with (length (@nil N)). rewrite !map_nth. rewrite upd_nth. destruct (Nat.eqb_spec b i) as [<-|]; [|reflexivity].
    destruct (b <? length m); cbn [andb]; [|reflexivity]. apply upd_length.
  - destruct (nth_error (arr m b) off); injection E as <- <-; reflexivity.
Qed.
Lemma solo_shape {A} m (p : prog A) m' p' : solo m p m' p' -> map (@length N) m' = map (@length N) m.
Proof. induction 1 as [|m p m1 p1 m2 p2 E H IH]; [reflexivity|]. rewrite IH. exact (astep_shape p _ _ _ E). Qed.

Lemma upd_same {A} (l : list A) x : forall i, nth_error l i = Some x -> upd l i x = l.
Proof. induction l as [|y l IH]; intros [|i] H; cbn in *; try congruence. now rewrite IH. Qed.
Lemma reach_trans {A} m (ps : list (prog A)) m' ps' : reach m ps m' ps' -> forall m'' ps'', reach m' ps' m'' ps'' -> reach m ps m'' ps''.
Proof. induction 1 as [|m ps i p m1 p1 m2 ps2 Hi E H IH]; intros m'' ps'' H2; [exact H2|]. eapply re_step; [exact Hi|exact E|]. now apply IH. Qed.
Lemma solo_reach {A} m p m' p' : solo m p m' p' -> forall (ps : list (prog A)) i, nth_error ps i = Some p -> reach m ps m' (upd ps i p').
Proof.
  induction 1 as [m p|m p m1 p1 m2 p2 E H IH]; intros ps i Hi; [rewrite (upd_same ps p i Hi); constructor|].
  eapply re_step; [exact Hi|exact E|]. rewrite <- (upd_upd ps i p1 p2). apply IH.
  assert (i < length ps) by (apply nth_error_Some; congruence). rewrite upd_nth_error, Nat.eqb_refl. destruct (Nat.ltb_spec i (length ps)); [reflexivity|lia].
Qed.
Lemma nth_upd_same {A} (l : list A) i x : i < length l -> nth_error (upd l i x) i = Some x.
Proof. intros H. rewrite upd_nth_error, Nat.eqb_refl. destruct (Nat.ltb_spec i (length l)); [reflexivity|lia]. Qed.
Lemma nth_upd_other {A} (l : list A) i j x : i <> j -> nth_error (upd l i x) j = nth_error l j.
Proof. intros H. rewrite upd_nth_error. destruct (Nat.eqb_spec i j); [congruence|reflexivity]. Qed.

(** Every computation can be run to its end. *)
Lemma solo_ends {A} (p : prog A) : forall m, exists m' r, solo m p m' (Ret r).
Proof.
  induction p as [r|b off x k IH|b off k IH]; intros m.
  - exists m, r. constructor.
  - destruct (off <? length (arr m b)) eqn:E.
    + destruct (IH (upd m b (upd (arr m b) off x))) as (m' & r & H). exists m', r. eapply so_step; [cbn [astep]; rewrite E; reflexivity|exact H].
    + exists m, UB. eapply so_step; [cbn [astep]; rewrite E; reflexivity|constructor].
  - destruct (nth_error (arr m b) off) as [x|] eqn:E.
    + destruct (IH x m) as (m' & r & H). exists m', r. eapply so_step; [cbn [astep]; rewrite E; reflexivity|exact H].
    + exists m, UB. eapply so_step; [cbn [astep]; rewrite E; reflexivity|constructor].
Qed.
Lemma interleaved_exists {A} (ps : list (prog A)) m : exists rs, interleaved m ps rs.
Proof.
  assert (H : forall qs (rs : list (res A)) m, exists rs' m', reach m (map Ret rs ++ qs) m' (map Ret rs')).
  { induction qs as [|q qs IH]; intros rs m0; [exists rs, m0; rewrite app_nil_r; constructor|].
    destruct (solo_ends q m0) as (m1 & r & Hs). destruct (IH (rs ++ [r]) m1) as (rs' & m2 & H2). exists rs', m2.
    eapply reach_trans; [apply (solo_reach _ _ _ _ Hs _ (length rs))|].
    - rewrite nth_error_app2 by now rewrite map_length. rewrite map_length, Nat.sub_diag. reflexivity.
    - replace (upd (map Ret rs ++ q :: qs) (length rs) (Ret r)) with (map Ret (rs ++ [r]) ++ qs); [exact H2|].
      rewrite map_app, <- app_assoc. cbn [map app]. rewrite <- (map_length (@Ret A) rs). generalize (map (@Ret A) rs) as l. clear.
      induction l as [|y l IH]; cbn; [reflexivity|]. now rewrite IH. }
  destruct (H ps [] m) as (rs & m' & R). exists rs, m'. exact R.
Qed.

(** * Disjoint arrays *)
Definition apart (Sets : nat -> nat -> Prop) : Prop := forall i j b, i <> j -> Sets i b -> Sets j b -> False.
Definition all_touch {A} (Sets : nat -> nat -> Prop) (ps : list (prog A)) : Prop := forall i p, nth_error ps i = Some p -> touches (Sets i) p.
Lemma reach_touch {A} Sets m (ps : list (prog A)) m' ps' : reach m ps m' ps' -> all_touch Sets ps -> all_touch Sets ps'.
Proof.
  induction 1 as [|m ps i p m1 p1 m2 ps2 Hi E H IH]; intros Ht; [exact Ht|]. apply IH. intros j q Hj.
  rewrite upd_nth_error in Hj. destruct (Nat.eqb_spec i j) as [<-|Hne]; cbn [andb] in Hj; [|exact (Ht j q Hj)].
  destruct (i <? length ps); [|exact (Ht i q Hj)]. injection Hj as <-. exact (proj1 (astep_touches (Sets i) p m m1 p1 (Ht i p Hi) E)).
Qed.
Lemma reach_answers {A} Sets m (ps : list (prog A)) m' ps' : apart Sets -> reach m ps m' ps' -> all_touch Sets ps ->
  forall i p, nth_error ps i = Some p -> exists p', nth_error ps' i = Some p' /\ answer (alone m p) = answer (alone m' p').
Proof.
  intros Ha. induction 1 as [|m ps i p m1 p1 m2 ps2 Hi E H IH]; intros Ht j q Hj; [eauto|].
  destruct (astep_touches (Sets i) p m m1 p1 (Ht i p Hi) E) as (Ht1 & Hl & Hm).
  assert (Hlt : i < length ps) by (apply nth_error_Some; congruence).
  assert (Ht' : all_touch Sets (upd ps i p1)).
  { intros j' q' Hj'. destruct (Nat.eq_dec i j') as [<-|Hne]; [rewrite nth_upd_same in Hj' by exact Hlt; now injection Hj' as <-|rewrite nth_upd_other in Hj' by exact Hne; exact (Ht j' q' Hj')]. }
  destruct (Nat.eq_dec i j) as [<-|Hne].
  - assert (q = p) as -> by congruence. destruct (IH Ht' i p1 (nth_upd_same ps i p1 Hlt)) as (p' & E1 & E2). exists p'. split; [exact E1|].
    rewrite <- E2. exact (astep_answer p m m1 p1 E).
  - destruct (IH Ht' j q) as (p' & E1 & E2); [now rewrite nth_upd_other|]. exists p'. split; [exact E1|]. rewrite <- E2.
    apply (alone_agree (Sets j) q (Ht j q Hj)); [congruence|]. intros x Hx. symmetry. apply Hm. intros Hs. exact (Ha i j x Hne Hs Hx).
Qed.
Lemma touches_next {A} S (p : prog A) b off w : touches S p -> next p = Some (b, off, w) -> S b.
Proof. intros H E. destruct H; cbn [next] in E; [discriminate|congruence..]. Qed.
Lemma apart_race_free {A} Sets (ps : list (prog A)) : apart Sets -> all_touch Sets ps -> ~ racing ps.
Proof.
  intros Ha Ht (i & j & p & q & b & off & w1 & w2 & Hne & Hp & Hq & N1 & N2 & _).
  exact (Ha i j b Hne (touches_next _ p _ _ _ (Ht i p Hp) N1) (touches_next _ q _ _ _ (Ht j q Hq) N2)).
Qed.
Lemma touches_weaken {A} (S T : nat -> Prop) (p : prog A) : (forall b, S b -> T b) -> touches S p -> touches T p.
Proof. intros H. induction 1 as [r|b off x k Hb Hk IH|b off k Hb Hk IH]; constructor; auto. Qed.

(** * A first write to element 0 of an array *)
Definition writes_first {A} (b : nat) (p : prog A) : Prop := exists x k, p = Wr b 0 x k.
Lemma writes_pbind {A B} b (p : prog A) (f : A -> prog B) : writes_first b p -> writes_first b (pbind p f).
Proof. intros (x & k & ->). exists x, (pbind k f). reflexivity. Qed.
Lemma writes_wr {A} b h (k : prog A) : h <> [] -> writes_first b (wr_list b 0 h k).
Proof. destruct h as [|x h]; [congruence|]. intros _. exists x, (wr_list b (0 + 1) h k). reflexivity. Qed.
Lemma alone_ok_pbind {A B} (p : prog A) (f : A -> prog B) m r : answer (alone m (pbind p f)) = Ok r -> exists a m1, alone m p = Ok (a, m1) /\ answer (alone m1 (f a)) = Ok r.
Proof. rewrite alone_pbind. destruct (alone m p) as [[a m1]| | |]; cbn [bind]; try discriminate. eauto. Qed.
