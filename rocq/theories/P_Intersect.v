(** Proofs about M_Intersect. *)
From Coq Require Import Permutation Sorted.
From Verif Require Import Base M_Iter S_Iter M_Intersect S_Intersect P_Heap.
Local Open Scope nat_scope.

Lemma increasing_in_ge l p d x : increasing l -> p < length l -> In x l -> x <= nth p l d \/ In x (skipn (p + 1) l).
Proof.
  intros H. revert p. induction H as [|y l H IH Hy]; intros p Hp Hx; [cbn in Hp; lia|].
  destruct p as [|p].
  - destruct Hx as [<-|Hx]; [left; cbn; lia|right; exact Hx].
  - destruct Hx as [<-|Hx].
    + left. cbn. rewrite Forall_forall in Hy. apply Nat.lt_le_incl, Hy. apply nth_In. cbn in Hp. lia.
    + cbn. apply IH; auto. cbn in Hp. lia.
Qed.

Lemma increasing_skip_ge l p d x : increasing l -> In x (skipn p l) -> nth p l d <= x.
Proof.
  intros H. revert p. induction H as [|y l H IH Hy]; intros p Hx; [rewrite skipn_nil in Hx; destruct Hx|].
  destruct p as [|p].
  - destruct Hx as [<-|Hx]; [cbn; lia|]. rewrite Forall_forall in Hy. cbn. specialize (Hy x Hx). lia.
  - cbn in *. now apply IH.
Qed.

Section FG.
  Variable u : nat.
  Lemma first_geq_val : forall l c, increasing l -> Forall (fun x => x < u) l -> c <= u ->
    let v := nth (first_geq l c) l u in
    c <= v <= u /\ (forall x, In x l -> c <= x -> v <= x) /\ (v < u -> In v l).
  Proof.
    induction l as [|y l IH]; intros c Hi Hu Hc; cbn [first_geq].
    - cbn. split; [lia|]. split; [intros x []|lia].
    - inversion Hi as [|? ? Hil Hy]; inversion Hu as [|? ? Hyu Hul]; subst.
      destruct (Nat.leb_spec c y) as [L|L].
      + cbn. split; [lia|]. split; [|auto]. intros x [<-|Hx] Hcx; [lia|].
        rewrite Forall_forall in Hy. specialize (Hy x Hx). lia.
      + cbn [nth]. destruct (IH c Hil Hul Hc) as (A & B & C). cbv zeta in *. split; [exact A|]. split.
        * intros x [<-|Hx] Hcx; [lia|]. now apply B.
        * intros H. right. now apply C.
  Qed.
  Lemma first_geq_mono : forall l c c', c <= c' -> first_geq l c <= first_geq l c'.
  Proof. induction l as [|y l IH]; intros c c' H; cbn [first_geq]; [lia|]. specialize (IH c c' H). destruct (Nat.leb_spec c y), (Nat.leb_spec c' y); lia. Qed.
  Lemma first_geq_at : forall l p, increasing l -> Forall (fun x => x < u) l -> p <= length l -> p <= first_geq l (nth p l u).
  Proof.
    induction l as [|y l IH]; intros p Hi Hu Hp; [cbn in *; lia|]. inversion Hi as [|? ? Hil Hy]; inversion Hu as [|? ? Hyu Hul]; subst.
    destruct p as [|p]; [lia|]. cbn [nth first_geq length] in *. specialize (IH p Hil Hul ltac:(lia)).
    destruct (Nat.leb_spec (nth p l u) y) as [L|L]; [|lia]. exfalso.
    destruct (Nat.lt_ge_cases p (length l)) as [Hl|Hl]; [|rewrite nth_overflow in L by lia; lia].
    rewrite Forall_forall in Hy. specialize (Hy _ (nth_In l u Hl)). lia.
  Qed.
End FG.
Lemma cursor_forward {It} (ops : iter_ops It) u at_ : cursor ops u at_ -> forward_cursor ops u at_.
Proof. intros H it l p Ha. destruct (H it l p Ha) as (A & B & C & D & E & F & G & I & J & K). repeat (split; [assumption|]). split; [|exact K]. intros lb Hlb _. now apply J. Qed.

Section Inter.
  Context {It : Type}.
  Variable ops : iter_ops It.
  Variable u : nat.
  Variable at_ : It -> list nat -> nat -> Prop.
  Hypothesis Hcur : forward_cursor ops u at_.
  Variable lists : list (list nat).
  Hypothesis Hne : lists <> [].

  (** No iterator has gone past the candidate [c]. *)
  Definition rep_its (c : nat) (its : list It) : Prop := Forall2 (fun it l => exists p, at_ it l p /\ p <= first_geq l c) its lists.
  Definition is_common (d : nat) : Prop := Forall (In d) lists.

  Lemma rep_later c c' its : rep_its c its -> c <= c' -> rep_its c' its.
  Proof.
    unfold rep_its. clear Hne. intros H L. induction H as [|it l its ls (p & Hp & Hl) H IH]; constructor; [|assumption]. exists p. split; [assumption|].
    pose proof (first_geq_mono l c c' L). lia.
  Qed.
  Lemma rep_nth c its j it : rep_its c its -> nth_error its j = Some it ->
    exists l p, nth_error lists j = Some l /\ at_ it l p /\ p <= first_geq l c.
  Proof.
    unfold rep_its. clear Hne. intros H. revert j. induction H as [|a b q L Hab HF2 IH]; intros j Hf; [destruct j; discriminate|].
    destruct j as [|j]; cbn in *; [|now apply IH]. injection Hf as <-. destruct Hab as (p & Hp & Hl). eauto.
  Qed.

  Lemma rep_upd c its j it l p : rep_its c its -> nth_error lists j = Some l -> at_ it l p -> p <= first_geq l c -> rep_its c (upd its j it).
  Proof.
    unfold rep_its. clear Hne. intros H. revert j. induction H as [|a b q L Hab HF2 IH]; intros j Hl Ha Hc; [constructor|].
    destruct j as [|j]; cbn in *.
    - injection Hl as ->. constructor; [eauto|assumption].
    - constructor; [assumption|]. now apply IH.
  Qed.

  Lemma rep_len c its : rep_its c its -> length its = length lists.
  Proof. apply Forall2_len. Qed.

  (** All iterators before [n] stand at [c]. *)
  Definition agree (its : list It) (n c : nat) : Prop :=
    forall j it, j < n -> nth_error its j = Some it -> i_deref ops it = c.

  Lemma agree_common b its c : rep_its b its -> agree its (length its) c -> c < u -> is_common c.
  Proof.
    intros Hr Ha Hc. apply Forall_forall. intros l Hl. apply In_nth_error in Hl. destruct Hl as [j Hj].
    assert (j < length its) by (rewrite (rep_len b its Hr); apply nth_error_Some; congruence).
    destruct (get_some its j H) as (it & Ei & _).
    destruct (rep_nth b its j it Hr Ei) as (l' & p & El & Hat & _). assert (l' = l) by congruence. subst.
    destruct (Hcur it l p Hat) as (_ & Hu & Hp & _ & _ & _ & Hd & _).
    specialize (Ha j it H Ei). rewrite Hd in Ha.
    destruct (Nat.lt_ge_cases p (length l)) as [L|L].
    - rewrite <- Ha. now apply nth_In.
    - rewrite nth_overflow in Ha by lia. lia.
  Qed.

  Definition nx_inv (c0 : nat) (n : nat) (s : nat * inter It) : Prop :=
    let '(val, x) := s in
    rep_its (x_cand x) (x_its x) /\ x_i x <= length lists /\ c0 <= x_cand x <= u /\
    (forall d, is_common d -> c0 <= d -> x_cand x <= d) /\
    agree (x_its x) (x_i x) (x_cand x) /\ (u <= val -> x_cand x = u) /\
    n = (u - x_cand x) * (length lists + 1) + (length lists - x_i x).

  Definition nx_post (c0 : nat) (x : inter It) : Prop :=
    rep_its (x_cand x) (x_its x) /\ c0 <= x_cand x <= u /\
    (forall d, is_common d -> c0 <= d -> x_cand x <= d) /\
    (x_cand x < u -> agree (x_its x) (length (x_its x)) (x_cand x)).

  Lemma inter_step_ok c0 n s : nx_inv c0 n s ->
    match inter_step ops u s with
    | Ok (inl s') => exists n', n' < n /\ nx_inv c0 n' s'
    | Ok (inr x) => nx_post c0 x
    | _ => False
    end.
  Proof.
    destruct s as [val [c i its]]. cbn [x_cand x_i x_its].
    intros (Hr & Hi & Hc & Hlow & Hag & Hval & Hn). cbn [inter_step x_cand x_i x_its] in *.
    pose proof (rep_len c its Hr) as Hlen.
    destruct (Nat.ltb_spec val u) as [Lv|Lv]; cbn [andb].
    2:{ split; [exact Hr|]. split; [exact Hc|]. split; [exact Hlow|]. cbn. intros. specialize (Hval Lv). lia. }
    destruct (Nat.eqb_spec i (length its)) as [Ei|Ei]; cbn [negb].
    { split; [exact Hr|]. split; [exact Hc|]. split; [exact Hlow|]. cbn. intros _. now rewrite <- Ei. }
    destruct (get_some its i) as (it & Eit & Git); [lia|]. rewrite Git. cbn [bind].
    destruct (rep_nth c its i it Hr Eit) as (l & p & El & Hat & Hpc).
    destruct (Hcur it l p Hat) as (Hinc & Hu & _ & _ & _ & _ & _ & _ & Hgeq & _).
    destruct (Hgeq c ltac:(lia) Hpc) as (it' & Eg & Hat'). rewrite Eg. cbn [bind].
    destruct (Hcur it' l _ Hat') as (_ & _ & _ & _ & _ & _ & Hd' & _).
    destruct (first_geq_val u l c Hinc Hu ltac:(lia)) as (A & B & C). cbv zeta in A, B, C.
    rewrite <- Hd' in A, B, C. set (v := i_deref ops it') in *.
    assert (Hr' : rep_its v (upd its i it')) by (eapply rep_upd; [eapply rep_later; [exact Hr|lia]|exact El|exact Hat'|apply first_geq_mono; lia]).
    assert (Hge : forall d, is_common d -> c0 <= d -> v <= d).
    { intros d Hd Hcd. apply B; [|now apply Hlow]. unfold is_common in Hd. rewrite Forall_forall in Hd.
      apply Hd. eapply nth_error_In; eauto. }
    destruct (Nat.eqb_spec v c) as [Ev|Ev]; cbn [negb].
    - eexists. split; [|split; [cbn [x_cand x_its]; rewrite <- Ev; exact Hr'|]; cbn [x_cand x_i x_its]; repeat split; auto; try lia].
      + cbn [x_cand x_i]. lia.
      + intros j jt Hj Ej. destruct (Nat.eq_dec j i) as [->|Hji].
        * rewrite upd_same in Ej by lia. injection Ej as <-. exact Ev.
        * rewrite upd_other in Ej by lia. apply (Hag j jt); [lia|exact Ej].
    - eexists. split; [|split; [exact Hr'|]; cbn [x_cand x_i x_its]; repeat split; auto; try lia].
      + cbn [x_cand x_i]. nia.
      + intros j jt Hj. lia.
  Qed.

  Lemma inter_next_ok fuel c0 x :
    rep_its (x_cand x) (x_its x) -> x_i x <= length lists -> c0 <= x_cand x <= u -> 0 < u ->
    (forall d, is_common d -> c0 <= d -> x_cand x <= d) ->
    agree (x_its x) (x_i x) (x_cand x) ->
    (u + 1) * (length lists + 1) < fuel ->
    exists x', inter_next ops u fuel x = Ok x' /\ nx_post c0 x'.
  Proof.
    intros H1 H2 H3 Hu H4 H5 Hf. unfold inter_next.
    apply (loop_ok_n (inter_step ops u) (nx_inv c0) (nx_post c0)) with
      (n := (u - x_cand x) * (length lists + 1) + (length lists - x_i x)).
    - intros n s Hs. exact (inter_step_ok c0 n s Hs).
    - unfold nx_inv. repeat split; auto; lia.
    - nia.
  Qed.

  Variable fuel : nat.
  Hypothesis Hfuel : (u + 1) * (length lists + 1) < fuel.
  Hypothesis Hu0 : 0 < u.

  Lemma rep_first c its : rep_its c its -> exists it its', its = it :: its'.
  Proof. intros H. destruct its as [|it its]; [|eauto]. inversion H. congruence. Qed.

  Lemma inter_yields : forall R x,
    increasing R -> rep_its (x_cand x) (x_its x) -> x_cand x <= u ->
    (forall d, In d R <-> is_common d /\ x_cand x <= d) ->
    (x_cand x < u -> agree (x_its x) (length (x_its x)) (x_cand x)) ->
    yields (inter_stream ops u fuel) x R.
  Proof.
    induction R as [|d R IH]; intros x Hinc Hr Hc HR Hag; cbn [yields].
    - cbn. apply Nat.ltb_ge. destruct (Nat.lt_ge_cases (x_cand x) u) as [L|L]; [|exact L]. exfalso.
      apply (HR (x_cand x)). split; [|lia]. now apply (agree_common (x_cand x) (x_its x)); auto.
    - inversion Hinc as [|? ? HincR Hd]; subst.
      assert (Hdu : d < u).
      { destruct (proj1 (HR d) (or_introl eq_refl)) as [Hcd _].
        destruct (rep_first _ _ Hr) as (it & its' & E).
        destruct (rep_nth _ (x_its x) 0 it Hr) as (l & p & El & Hat & _); [now rewrite E|].
        destruct (Hcur it l p Hat) as (_ & Hu & _). unfold is_common in Hcd. rewrite Forall_forall in Hcd, Hu.
        apply Hu, Hcd. eapply nth_error_In; eauto. }
      assert (Ecand : x_cand x = d).
      { destruct (proj1 (HR d) (or_introl eq_refl)) as [_ Hle].
        assert (Hcc : is_common (x_cand x)) by (apply (agree_common (x_cand x) (x_its x)); auto; try apply Hag; lia).
        assert (Hin : In (x_cand x) (d :: R)) by (apply HR; split; [exact Hcc|lia]).
        destruct Hin as [<-|Hin]; [reflexivity|]. rewrite Forall_forall in Hd. specialize (Hd _ Hin). lia. }
      split; [cbn; apply Nat.ltb_lt; lia|]. split; [exact Ecand|].
      destruct (rep_first _ _ Hr) as (it & its' & E).
      destruct (rep_nth _ (x_its x) 0 it Hr) as (l & p & El & Hat & _); [now rewrite E|].
      destruct (Hcur it l p Hat) as (Hinc0 & Hu & Hp & _ & _ & _ & Hd0 & Hnx & _).
      assert (Hdz : i_deref ops it = d).
      { rewrite <- Ecand. apply (Hag ltac:(lia) 0 it); [rewrite E; cbn; lia|now rewrite E]. }
      assert (Hpl : p < length l).
      { destruct (Nat.lt_ge_cases p (length l)); [assumption|]. rewrite nth_overflow in Hd0 by lia. lia. }
      destruct (Hnx Hpl) as (it1 & En & Hat1).
      destruct (Hcur it1 l (p + 1) Hat1) as (_ & _ & Hp1 & _ & _ & _ & Hd1 & _).
      cbn [s_next inter_stream]. unfold inter_incr.
      rewrite (get_ok (x_its x) 0 it) by (now rewrite E). cbn [bind]. rewrite En. cbn [bind].
      assert (Hgt : d < i_deref ops it1 <= u).
      { rewrite Hd1. destruct (Nat.lt_ge_cases (p + 1) (length l)) as [L|L].
        - assert (Hin : nth (p + 1) l u < u) by (rewrite Forall_forall in Hu; apply Hu, nth_In; lia).
          split; [|lia]. rewrite <- Hdz, Hd0. clear -Hinc0 L. revert p L.
          induction Hinc0 as [|y l H IH Hy]; intros p L; [cbn in L; lia|].
          destruct p as [|p]; cbn in *.
          + destruct l as [|z l]; [cbn in L; lia|]. inversion Hy; subst. cbn. assumption.
          + apply IH. lia.
        - rewrite nth_overflow by lia. lia. }
      destruct (inter_next_ok fuel (i_deref ops it1)
        {| x_cand := i_deref ops it1; x_i := 1; x_its := upd (x_its x) 0 it1 |}) as (x' & Ex & P1 & P2 & P3 & P4);
        cbn [x_cand x_i x_its]; auto.
      + eapply rep_upd; [eapply rep_later; [exact Hr|lia]|exact El|exact Hat1|rewrite Hd1; apply first_geq_at; assumption].
      + destruct lists; [congruence|cbn; lia].
      + lia.
      + intros j jt Hj Ej. replace j with 0 in Ej by lia. rewrite E in Ej. cbn in Ej. now injection Ej as <-.
      + exists x'. split; [exact Ex|]. apply IH; auto; [lia|].
        intros e. split.
        * intros He. destruct (proj1 (HR e) (or_intror He)) as [Hce _]. split; [exact Hce|].
          apply P3; [exact Hce|].
          rewrite Forall_forall in Hd. specialize (Hd e He).
          assert (Hel : In e l) by (unfold is_common in Hce; rewrite Forall_forall in Hce; apply Hce; eapply nth_error_In; eauto).
          destruct (increasing_in_ge l p u e Hinc0 Hpl Hel) as [H|H]; [lia|].
          rewrite Hd1. now apply increasing_skip_ge.
        * intros [Hce Hle]. destruct (proj2 (HR e)) as [H|H]; [split; [exact Hce|lia]| |exact H]. lia.
  Qed.
End Inter.

Lemma open_terms_ok {It} (at_ : It -> list nat -> nat -> Prop) iterator postings ids lists :
  opens at_ iterator postings ->
  Forall2 (fun id l => 0 < id /\ nth_error postings (id - 1) = Some l) ids lists ->
  exists its, open_terms iterator ids = Ok its /\ Forall2 (fun it l => at_ it l 0) its lists.
Proof.
  intros Hop H. induction H as [|id l ids ls [Hid Hl] H IH].
  - exists []. split; [reflexivity|constructor].
  - cbn [open_terms]. destruct id as [|t]; [lia|]. cbn in Hl. rewrite Nat.sub_0_r in Hl.
    destruct (Hop t l Hl) as (it & E & Ha). rewrite E. cbn [bind].
    destruct IH as (its & E2 & HF). rewrite E2. cbn [bind]. eexists. split; [reflexivity|]. now constructor.
Qed.

(** The constructor yields the common elements. *)
Lemma intersection_forward {It} (ops : iter_ops It) u at_ iterator postings sort ids lists fuel r :
  forward_cursor ops u at_ -> opens at_ iterator postings -> sorts_by_size ops sort ->
  ids <> [] ->
  Forall2 (fun id l => 0 < id /\ nth_error postings (id - 1) = Some l) ids lists ->
  (u + 1) * (length ids + 1) < fuel ->
  common lists r ->
  exists x, intersection ops u iterator sort fuel ids = Ok x /\ yields (inter_stream ops u fuel) x r.
Proof.
  intros Hcur Hop Hsort Hids HF Hf [Hrinc Hr].
  destruct (open_terms_ok at_ iterator postings ids lists Hop HF) as (its & E & HF2).
  unfold intersection. rewrite E. cbn [bind].
  destruct (Hsort its) as [P _].
  destruct (Permutation_Forall2 (Permutation_sym P) HF2) as (lists' & P2 & HF3).
  assert (Hlen : length ids = length lists) by (eapply Forall2_len; eauto).
  assert (Hlen' : length lists' = length lists) by (symmetry; now apply Permutation_length).
  assert (Hne : lists' <> []).
  { intros ->. apply Hids. destruct ids; [reflexivity|]. cbn in *. lia. }
  assert (Hrep0 : forall c, rep_its at_ lists' c (sort its)).
  { intros c. unfold rep_its. clear -HF3. induction HF3; constructor; [exists 0; split; [assumption|lia]|assumption]. }
  assert (Hcomm : forall d, is_common lists' d <-> In d r).
  { intros d. rewrite Hr. unfold is_common. split; apply Permutation_Forall; [now symmetry|exact P2]. }
  destruct (rep_first at_ lists' Hne _ _ (Hrep0 0)) as (it & its' & Es).
  rewrite Es. cbn [get nth_error bind].
  destruct (rep_nth at_ lists' _ (sort its) 0 it (Hrep0 0)) as (l & p & El & Hat & _); [now rewrite Es|].
  destruct (Hcur it l p Hat) as (Hinc & Hu & _ & Hlne & _ & _ & _ & _ & _ & (it0 & E0 & Hat0)).
  rewrite E0. cbn [bind].
  destruct (Hcur it0 l 0 Hat0) as (_ & _ & _ & _ & _ & _ & Hd0 & _).
  assert (Hd0' : i_deref ops it0 < u).
  { rewrite Hd0. destruct l; [congruence|]. inversion Hu; assumption. }
  rewrite <- Es.
  destruct (inter_next_ok ops u at_ Hcur lists' fuel 0
    {| x_cand := i_deref ops it0; x_i := 1; x_its := upd (sort its) 0 it0 |}) as (x & Ex & P1 & Pb & P3 & P4);
    cbn [x_cand x_i x_its].
  - eapply rep_upd; [apply Hrep0|exact El|exact Hat0|lia].
  - destruct lists'; [congruence|cbn; lia].
  - lia.
  - lia.
  - intros d Hd _. rewrite Hd0. unfold is_common in Hd. rewrite Forall_forall in Hd.
    assert (Hdl : In d l) by (apply Hd; eapply nth_error_In; eauto).
    apply (increasing_skip_ge l 0 u d Hinc Hdl).
  - intros j jt Hj Ej. replace j with 0 in Ej by lia. rewrite Es in Ej. cbn in Ej. now injection Ej as <-.
  - rewrite Hlen', <- Hlen. exact Hf.
  - exists x. split; [exact Ex|].
    apply (inter_yields ops u at_ Hcur lists' Hne fuel); auto; [|lia|lia|].
    + rewrite Hlen', <- Hlen. exact Hf.
    + intros d. rewrite <- Hcomm. split; [intros H; split; [exact H|apply P3; [exact H|lia]]|tauto].
Qed.

Lemma intersection_ok {It} (ops : iter_ops It) u at_ iterator postings sort ids lists fuel r :
  cursor ops u at_ -> opens at_ iterator postings -> sorts_by_size ops sort ->
  ids <> [] ->
  Forall2 (fun id l => 0 < id /\ nth_error postings (id - 1) = Some l) ids lists ->
  (u + 1) * (length ids + 1) < fuel ->
  common lists r ->
  exists x, intersection ops u iterator sort fuel ids = Ok x /\ yields (inter_stream ops u fuel) x r.
Proof. intros Hc. now apply intersection_forward, cursor_forward. Qed.

(** Single posting lists as streams. *)
Lemma iter_yields_forward {It} (ops : iter_ops It) u at_ (Hcur : forward_cursor ops u at_) : forall n it l p,
  at_ it l p -> n = length l - p -> yields (iter_stream ops) it (skipn p l).
Proof.
  induction n as [|n IH]; intros it l p Ha Hn.
  - rewrite skipn_all2 by lia. cbn. destruct (Hcur it l p Ha) as (_ & _ & Hp & _ & _ & Hh & _).
    rewrite Hh. apply Nat.ltb_ge. lia.
  - destruct (Hcur it l p Ha) as (_ & _ & Hp & _ & _ & Hh & Hd & Hnx & _).
    assert (L : p < length l) by lia.
    assert (Es : skipn p l = nth p l u :: skipn (p + 1) l).
    { clear -L. revert p L; induction l as [|x l IH]; intros p H; [cbn in H; lia|].
      destruct p as [|p]; [reflexivity|]. cbn in *. apply IH. lia. }
    rewrite Es. cbn [yields]. cbn.
    split; [rewrite Hh; now apply Nat.ltb_lt|]. split; [exact Hd|].
    destruct (Hnx L) as (it' & E & Ha'). exists it'. split; [exact E|]. apply IH; [exact Ha'|lia].
Qed.

Lemma iter_yields {It} (ops : iter_ops It) u at_ (Hcur : cursor ops u at_) n it l p :
  at_ it l p -> n = length l - p -> yields (iter_stream ops) it (skipn p l).
Proof. apply (iter_yields_forward ops u at_), cursor_forward, Hcur. Qed.

Lemma single_list_forward {It} (ops : iter_ops It) u at_ iterator postings t l :
  forward_cursor ops u at_ -> opens at_ iterator postings -> nth_error postings t = Some l ->
  exists it, iterator t = Ok it /\ yields (iter_stream ops) it l.
Proof.
  intros Hc Ho H. destruct (Ho t l H) as (it & E & Ha). exists it. split; [exact E|].
  apply (iter_yields_forward ops u at_ Hc (length l) it l 0 Ha). lia.
Qed.

Lemma single_list_ok {It} (ops : iter_ops It) u at_ iterator postings t l :
  cursor ops u at_ -> opens at_ iterator postings -> nth_error postings t = Some l ->
  exists it, iterator t = Ok it /\ yields (iter_stream ops) it l.
Proof. intros Hc. exact (single_list_forward ops u at_ iterator postings t l (cursor_forward _ _ _ Hc)). Qed.
