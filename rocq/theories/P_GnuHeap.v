(** The heap algorithms of libstdc++ meet the contract, also on vectors whose root has been changed. *)
From Coq Require Import Permutation.
From Verif Require Import Base M_Heap S_Heap P_Heap M_GnuHeap.
Local Open Scope nat_scope.

(** Positions in the subtree of [t]. *)
Inductive sub (t : nat) : nat -> Prop :=
| sub_top : sub t t
| sub_left h : sub t h -> sub t (2 * h + 1)
| sub_right h : sub t h -> sub t (2 * h + 2).

Lemma sub_le t h : sub t h -> t <= h.
Proof. induction 1; lia. Qed.
Lemma sub_parent t h : sub t h -> t < h -> sub t ((h - 1) / 2).
Proof.
  intros H Hl. destruct H as [|h H|h H]; [lia| |].
  - now rewrite (proj1 (parent_of_child h)).
  - now rewrite (proj2 (parent_of_child h)).
Qed.
Lemma parent_bounds i : 0 < i -> i = 2 * ((i - 1) / 2) + 1 \/ i = 2 * ((i - 1) / 2) + 2.
Proof. intros Hi. now apply parent_children. Qed.

Section Gnu.
  Context {A : Type}.
  Variable key : A -> nat.

  (** The edges below [len] whose parent is at least [top]. *)
  Definition heap_from (top len : nat) (v : list A) : Prop :=
    forall i x y, 0 < i < len -> top <= (i - 1) / 2 -> nth_error v i = Some x -> nth_error v ((i - 1) / 2) = Some y -> key y <= key x.
  (** The children of the hole are not smaller than its parent. *)
  Definition around (top len : nat) (v : list A) (h : nat) : Prop :=
    forall i x y, 0 < i < len -> (i - 1) / 2 = h -> top < h -> nth_error v i = Some x -> nth_error v ((h - 1) / 2) = Some y -> key y <= key x.
  (** Going up: only the edge into the hole may be wrong. *)
  Definition up_inv (top len : nat) (v : list A) (h : nat) : Prop :=
    (forall i x y, 0 < i < len -> top <= (i - 1) / 2 -> i <> h ->
       nth_error v i = Some x -> nth_error v ((i - 1) / 2) = Some y -> key y <= key x) /\ around top len v h.
  (** Going down: only edges at the hole may be wrong. *)
  Definition down_inv (top len : nat) (v : list A) (h : nat) : Prop :=
    (forall i x y, 0 < i < len -> top <= (i - 1) / 2 -> i <> h -> (i - 1) / 2 <> h ->
       nth_error v i = Some x -> nth_error v ((i - 1) / 2) = Some y -> key y <= key x) /\ around top len v h.

  Lemma upd_upd (q : list A) i x y : upd (upd q i x) i y = upd q i y.
  Proof. revert i. induction q as [|z q IH]; intros [|i]; cbn; congruence. Qed.

  (** [v] is the vector with the value in the hole. *)
  Lemma gnu_sift_up_ok value : forall fuel q h top len, len <= length q -> h < len -> h < fuel -> sub top h ->
    up_inv top len (upd q h value) h ->
    exists q', gnu_sift_up key fuel q h top value = Ok q' /\ Permutation q' (upd q h value) /\ heap_from top len q' /\
      forall i, len <= i -> nth_error q' i = nth_error (upd q h value) i.
  Proof.
    induction fuel as [|fuel IH]; intros q h top len Hlen Hh Hf Hsub (H1 & H2); [lia|]. cbn [gnu_sift_up].
    destruct (Nat.ltb_spec top h) as [Ht|Ht].
    - pose proof (sub_parent top h Hsub Ht) as Hsp. pose proof (sub_le _ _ Hsp) as Htp. pose proof (parent_lt h ltac:(lia)) as Hp.
      set (p := (h - 1) / 2) in *. destruct (get_some q p) as (vp & Ep & Gp); [lia|]. rewrite Gp. cbn [bind].
      assert (Evp : nth_error (upd q h value) p = Some vp) by (rewrite upd_other by lia; exact Ep).
      assert (Evh : nth_error (upd q h value) h = Some value) by (apply upd_same; lia).
      destruct (Nat.ltb_spec (key value) (key vp)) as [Hk|Hk].
      + rewrite set_ok by lia. cbn [bind].
        assert (Esw : upd (upd q h vp) p value = upd (upd (upd q h value) h vp) p value) by now rewrite upd_upd.
        destruct (IH (upd q h vp) p top len) as (q' & E & P & Hq & Hr); [rewrite upd_length; lia|lia|lia|exact Hsp| |].
        * rewrite Esw. set (v := upd q h value) in *.
          assert (Lv : length v = length q) by apply upd_length.
          assert (Nh : nth_error (upd (upd v h vp) p value) h = Some vp) by (rewrite upd_other by lia; apply upd_same; lia).
          assert (Np : nth_error (upd (upd v h vp) p value) p = Some value) by (apply upd_same; rewrite upd_length; lia).
          assert (No : forall i, i <> h -> i <> p -> nth_error (upd (upd v h vp) p value) i = nth_error v i).
          { intros i A1 A2. rewrite !upd_other by lia. reflexivity. }
          split.
          -- intros i x y Hi Hti Hip Ex Ey. destruct (Nat.eq_dec i h) as [->|Hih].
             { fold p in Ey. rewrite Nh in Ex. rewrite Np in Ey. injection Ex as <-. injection Ey as <-. lia. }
             rewrite No in Ex by assumption. destruct (Nat.eq_dec ((i - 1) / 2) h) as [Eh|Hph].
             { rewrite Eh, Nh in Ey. injection Ey as <-. exact (H2 i x vp Hi Eh Ht Ex Evp). }
             destruct (Nat.eq_dec ((i - 1) / 2) p) as [E2|Hpp].
             { rewrite E2, Np in Ey. injection Ey as <-. specialize (H1 i x vp Hi Hti Hih Ex). rewrite E2 in H1. specialize (H1 Evp). lia. }
             rewrite No in Ey by assumption. exact (H1 i x y Hi Hti Hih Ex Ey).
          -- intros i x y Hi Epar Htp2 Ex Ey. pose proof (parent_lt p ltac:(lia)) as Hpp.
             pose proof (sub_le _ _ (sub_parent _ _ Hsp Htp2)) as Htpp.
             rewrite No in Ey by lia. assert (Hvp : key y <= key vp) by (apply (H1 p vp y); [lia|exact Htpp|lia|exact Evp|exact Ey]).
             destruct (Nat.eq_dec i h) as [->|Hih]; [rewrite Nh in Ex; injection Ex as <-; exact Hvp|].
             pose proof (parent_lt i ltac:(lia)) as Hpi. rewrite No in Ex by lia.
             specialize (H1 i x vp Hi ltac:(lia) Hih Ex). rewrite Epar in H1. specialize (H1 Evp). lia.
        * exists q'. split; [exact E|]. rewrite Esw in P, Hr. split; [|split; [exact Hq|]].
          -- rewrite P. now apply swap_perm; [lia| |].
          -- intros i Hi. rewrite Hr by exact Hi. rewrite !(upd_other _ _ _ i) by lia. reflexivity.
      + rewrite set_ok by lia. exists (upd q h value). split; [reflexivity|]. split; [reflexivity|]. split; [|reflexivity].
        intros i x y Hi Hti Ex Ey. destruct (Nat.eq_dec i h) as [->|Hih]; [|exact (H1 i x y Hi Hti Hih Ex Ey)].
        fold p in Ey. rewrite Evh in Ex. rewrite Evp in Ey. injection Ex as <-. injection Ey as <-. exact Hk.
    - pose proof (sub_le _ _ Hsub) as Hle. assert (h = top) as -> by lia. rewrite set_ok by lia. exists (upd q top value).
      split; [reflexivity|]. split; [reflexivity|]. split; [|reflexivity].
      intros i x y Hi Hti Ex Ey. apply (H1 i x y Hi Hti); [|exact Ex|exact Ey].
      intros ->. pose proof (parent_lt top ltac:(lia)). lia.
  Qed.

  (** One step down: the smaller child [s] moves into the hole. *)
  Lemma down_step value q h s c top len : len <= length q -> h < len -> sub top h -> s < len -> (s - 1) / 2 = h -> 0 < s ->
    nth_error q s = Some c ->
    (forall i x, 0 < i < len -> (i - 1) / 2 = h -> nth_error q i = Some x -> key c <= key x) ->
    down_inv top len (upd q h value) h ->
    down_inv top len (upd (upd q h c) s value) s /\ Permutation (upd (upd q h c) s value) (upd q h value) /\
    (forall i, len <= i -> nth_error (upd (upd q h c) s value) i = nth_error (upd q h value) i).
  Proof.
    intros Hlen Hh Hsub Hs Eps Hs0 Ec Hmin (H1 & H2). pose proof (parent_lt s Hs0) as Hps. pose proof (sub_le _ _ Hsub) as Hth.
    assert (Esw : upd (upd q h c) s value = upd (upd (upd q h value) h c) s value) by now rewrite upd_upd.
    assert (Esv : nth_error (upd q h value) s = Some c) by (rewrite upd_other by lia; exact Ec).
    assert (Ehv : nth_error (upd q h value) h = Some value) by (apply upd_same; lia).
    assert (Lv : length (upd q h value) = length q) by apply upd_length.
    assert (Hmin' : forall i x, 0 < i < len -> (i - 1) / 2 = h -> nth_error (upd q h value) i = Some x -> key c <= key x).
    { intros i x Hi Ei Ex. pose proof (parent_lt i ltac:(lia)). rewrite upd_other in Ex by lia. exact (Hmin i x Hi Ei Ex). }
    rewrite Esw. set (v := upd q h value) in *.
    assert (Nh : nth_error (upd (upd v h c) s value) h = Some c) by (rewrite upd_other by lia; apply upd_same; lia).
    assert (Ns : nth_error (upd (upd v h c) s value) s = Some value) by (apply upd_same; rewrite upd_length; lia).
    assert (No : forall i, i <> h -> i <> s -> nth_error (upd (upd v h c) s value) i = nth_error v i).
    { intros i A1 A2. rewrite !upd_other by lia. reflexivity. }
    split; [split|split].
    - intros i x y Hi Hti His Hpis Ex Ey. pose proof (parent_lt i ltac:(lia)) as Hpi. destruct (Nat.eq_dec i h) as [->|Hih].
      + rewrite Nh in Ex. injection Ex as <-. rewrite No in Ey by lia.
        apply (H2 s c y); [lia|exact Eps|lia|exact Esv|exact Ey].
      + rewrite No in Ex by assumption. destruct (Nat.eq_dec ((i - 1) / 2) h) as [Eh|Hph].
        * rewrite Eh, Nh in Ey. injection Ey as <-. exact (Hmin' i x Hi Eh Ex).
        * rewrite No in Ey by assumption. exact (H1 i x y Hi Hti Hih Hph Ex Ey).
    - intros i x y Hi Epar Hts Ex Ey. pose proof (parent_lt i ltac:(lia)) as Hpi. rewrite Eps, Nh in Ey. injection Ey as <-.
      rewrite No in Ex by lia. apply (H1 i x c); [exact Hi|lia|lia|lia|exact Ex|]. rewrite Epar. exact Esv.
    - apply swap_perm; [lia|exact Ehv|exact Esv].
    - intros i Hi. rewrite !(upd_other _ _ _ i) by lia. reflexivity.
  Qed.

  Lemma gnu_sift_down_ok value : forall fuel q h top len, 0 < len -> len <= length q -> h < len -> len <= h + fuel -> 0 < fuel -> sub top h ->
    down_inv top len (upd q h value) h ->
    exists q' h', gnu_sift_down key fuel q h len = Ok (q', h') /\ length q' = length q /\ h' < len /\ (len - 1) / 2 <= h' /\ sub top h' /\
      down_inv top len (upd q' h' value) h' /\ Permutation (upd q' h' value) (upd q h value) /\
      forall i, len <= i -> nth_error (upd q' h' value) i = nth_error (upd q h value) i.
  Proof.
    induction fuel as [|fuel IH]; intros q h top len H0 Hlen Hh Hf Hf0 Hsub Hinv; [lia|]. cbn [gnu_sift_down].
    pose proof (Nat.div_mod (len - 1) 2 ltac:(lia)) as D. pose proof (Nat.mod_upper_bound (len - 1) 2 ltac:(lia)) as M.
    destruct (Nat.ltb_spec h ((len - 1) / 2)) as [Hlt|Hge].
    - cbv zeta. destruct (get_some q (2 * (h + 1))) as (b & Eb & Gb); [lia|]. rewrite Gb. cbn [bind].
      destruct (get_some q (2 * (h + 1) - 1)) as (a & Ea & Ga); [lia|]. rewrite Ga. cbn [bind].
      destruct (parent_of_child h) as [Pl Pr]. replace (2 * (h + 1)) with (2 * h + 2) in * by lia. replace (2 * h + 2 - 1) with (2 * h + 1) in * by lia.
      set (s := if key a <? key b then 2 * h + 1 else 2 * h + 2).
      assert (Hs : exists c, get q s = Ok c /\ nth_error q s = Some c /\ key c <= key a /\ key c <= key b /\ 0 < s < len /\ (s - 1) / 2 = h /\ sub top s).
      { unfold s. destruct (Nat.ltb_spec (key a) (key b)) as [Hab|Hab].
        - exists a. repeat split; auto; try lia. now constructor.
        - exists b. repeat split; auto; try lia. now constructor. }
      destruct Hs as (c & Gc & Ec & Hca & Hcb & Hs & Eps & Hsubs). rewrite Gc. cbn [bind]. rewrite set_ok by lia. cbn [bind].
      destruct (down_step value q h s c top len Hlen Hh Hsub ltac:(lia) Eps ltac:(lia) Ec) as (I2 & P2 & R2); [|exact Hinv|].
      { intros i x Hi Ei Ex. destruct (parent_children i h ltac:(lia) Ei) as [->|E2]; [congruence|]. rewrite E2 in Ex.
        rewrite Eb in Ex. injection Ex as <-. exact Hcb. }
      pose proof (parent_lt s ltac:(lia)) as Hps.
      destruct (IH (upd q h c) s top len) as (q' & h' & E & L & A1 & A2 & A3 & A4 & A5 & A6); auto; try lia; [rewrite upd_length; lia|].
      exists q', h'. split; [exact E|]. rewrite upd_length in L. repeat (split; [assumption|]).
      split; [now rewrite A5|]. intros i Hi. now rewrite A6, R2.
    - exists q, h. repeat split; auto; apply Hinv.
  Qed.

  Lemma gnu_adjust_ok value q top len : 0 < len -> len <= length q -> top < len ->
    down_inv top len (upd q top value) top ->
    exists q', gnu_adjust key q top len value = Ok q' /\ Permutation q' (upd q top value) /\ heap_from top len q' /\
      forall i, len <= i -> nth_error q' i = nth_error (upd q top value) i.
  Proof.
    intros H0 Hlen Ht Hinv. unfold gnu_adjust.
    destruct (gnu_sift_down_ok value (S len) q top top len H0 Hlen Ht ltac:(lia) ltac:(lia) (sub_top top) Hinv)
      as (q1 & h1 & E1 & L1 & B1 & B2 & B3 & B4 & B5 & B6). rewrite E1. cbn [bind].
    pose proof (Nat.div_mod (len - 1) 2 ltac:(lia)) as D. pose proof (Nat.mod_upper_bound (len - 1) 2 ltac:(lia)) as M.
    assert (Hfin : forall q2 h2, length q2 = length q -> h2 < len -> sub top h2 -> len <= 2 * h2 + 1 -> down_inv top len (upd q2 h2 value) h2 ->
      Permutation (upd q2 h2 value) (upd q top value) -> (forall i, len <= i -> nth_error (upd q2 h2 value) i = nth_error (upd q top value) i) ->
      exists q', gnu_sift_up key (S len) q2 h2 top value = Ok q' /\ Permutation q' (upd q top value) /\ heap_from top len q' /\
        forall i, len <= i -> nth_error q' i = nth_error (upd q top value) i).
    { intros q2 h2 L2 C1 C2 C3 (C4 & C5) C6 C7.
      destruct (gnu_sift_up_ok value (S len) q2 h2 top len ltac:(lia) C1 ltac:(lia) C2) as (q' & E & P & H & R).
      - split; [|exact C5]. intros i x y Hi Hti Hih Ex Ey. apply (C4 i x y Hi Hti Hih); auto. intros Ep. destruct (parent_bounds i ltac:(lia)); lia.
      - exists q'. split; [exact E|]. split; [now rewrite P|]. split; [exact H|]. intros i Hi. now rewrite R, C7. }
    destruct (Nat.even len && (h1 =? (len - 2) / 2)) eqn:Ec.
    - apply andb_true_iff in Ec as [Eev Eh]. apply Nat.eqb_eq in Eh. apply Nat.even_spec in Eev. destruct Eev as [m Em].
      assert (Hm : (len - 2) / 2 = m - 1) by (subst len; replace (2 * m - 2) with ((m - 1) * 2) by lia; apply Nat.div_mul; lia).
      cbv zeta. replace (2 * (h1 + 1) - 1) with (2 * h1 + 1) by lia. destruct (get_some q1 (2 * h1 + 1)) as (c & Ec & Gc); [lia|].
      rewrite Gc. cbn [bind]. rewrite set_ok by lia. cbn [bind]. destruct (parent_of_child h1) as [Pl Pr].
      destruct (down_step value q1 h1 (2 * h1 + 1) c top len) as (I2 & P2 & R2); auto; try lia.
      { intros i x Hi Ei Ex. destruct (parent_children i h1 ltac:(lia) Ei) as [->|E2]; [|lia]. assert (x = c) as -> by congruence. lia. }
      apply Hfin; auto; try lia.
      + now rewrite upd_length.
      + now constructor.
      + now rewrite P2.
      + intros i Hi. now rewrite R2, B6.
    - apply Hfin; auto; try lia.
      apply andb_false_iff in Ec as [Eev|Eh].
      + assert (Hodd : Nat.odd len = true) by (unfold Nat.odd; now rewrite Eev). apply Nat.odd_spec in Hodd. destruct Hodd as [m Em]. subst len.
        replace (2 * m + 1 - 1) with (m * 2) in B2 by lia. rewrite Nat.div_mul in B2 by lia. lia.
      + apply Nat.eqb_neq in Eh. pose proof (Nat.div_mod (len - 2) 2 ltac:(lia)) as D2. pose proof (Nat.mod_upper_bound (len - 2) 2 ltac:(lia)). lia.
  Qed.

  Lemma heap_from_is_heap q len : length q <= len -> heap_from 0 len q -> is_heap key q.
  Proof.
    intros Hl H i x y Hi Ex Ey. apply (H i x y); [|lia|exact Ex|exact Ey]. assert (i < length q) by (apply nth_error_Some; congruence). lia.
  Qed.

  Lemma upd_id (q : list A) i x : nth_error q i = Some x -> upd q i x = q.
  Proof. revert i. induction q as [|z q IH]; intros [|i] H; cbn in *; [reflexivity|discriminate|congruence|]. f_equal. now apply IH. Qed.

  Lemma gnu_push_ok q x : is_heap key q ->
    exists q', gnu_push_heap key (q ++ [x]) = Ok q' /\ is_heap key q' /\ Permutation q' (q ++ [x]).
  Proof.
    intros Hh. unfold gnu_push_heap. rewrite app_length. cbn [length]. replace (length q + 1 - 1) with (length q) by lia.
    assert (En : nth_error (q ++ [x]) (length q) = Some x) by (rewrite nth_error_app2, Nat.sub_diag by lia; reflexivity).
    rewrite (get_ok _ _ _ En). cbn [bind]. pose proof (upd_id _ _ _ En) as Eu.
    destruct (gnu_sift_up_ok x (length q + 1) (q ++ [x]) (length q) 0 (length q + 1)) as (q' & E & P & H & _).
    - rewrite app_length. cbn. lia.
    - lia.
    - lia.
    - clear. generalize (length q). intros n. induction n as [n IH] using lt_wf_ind. destruct (Nat.eq_dec n 0) as [->|Hn]; [constructor|].
      destruct (parent_bounds n ltac:(lia)) as [->|E]; [constructor; apply IH, parent_lt; lia|]. rewrite E. constructor. apply IH, parent_lt. lia.
    - rewrite Eu. split.
      + intros i a b Hi _ Hil Ea Eb. assert (Hi' : i < length q) by lia. pose proof (parent_lt i ltac:(lia)).
        rewrite nth_error_app1 in Ea, Eb by lia. apply (Hh i a b); auto. lia.
      + intros i a b Hi Ep Hl Ea Eb. pose proof (parent_lt i ltac:(lia)). lia.
    - rewrite Eu in P. exists q'. split; [exact E|]. split; [|exact P]. apply (heap_from_is_heap q' (length q + 1)); [|exact H].
      rewrite (Permutation_length P), app_length. cbn. lia.
  Qed.

  Lemma gnu_pop_ok x q : heap_below_root key (x :: q) ->
    exists q', gnu_pop_heap key (x :: q) = Ok (q' ++ [x]) /\ is_heap key q' /\ Permutation q' q.
  Proof.
    intros Hb. unfold gnu_pop_heap. cbn [length]. destruct (Nat.ltb_spec 1 (S (length q))) as [Hl|Hl].
    - replace (S (length q) - 1) with (length q) by lia. cbv zeta. destruct q as [|q0 q] using rev_ind; [cbn in Hl; lia|clear IHq].
      rewrite app_length in *. cbn [length] in *. replace (length q + 1) with (S (length q)) in * by lia.
      assert (Elast : nth_error (x :: q ++ [q0]) (S (length q)) = Some q0) by (cbn; rewrite nth_error_app2, Nat.sub_diag by lia; reflexivity).
      rewrite (get_ok _ _ _ Elast). cbn [bind get nth_error].
      rewrite set_ok by (cbn; rewrite app_length; cbn; lia). cbn [bind].
      assert (Eq : upd (x :: q ++ [q0]) (S (length q)) x = x :: q ++ [x]).
      { cbn [upd]. f_equal. clear. induction q as [|z q IH]; cbn; [reflexivity|]. now rewrite IH. }
      rewrite Eq. assert (Ev : upd (x :: q ++ [x]) 0 q0 = q0 :: q ++ [x]) by reflexivity.
      destruct (gnu_adjust_ok q0 (x :: q ++ [x]) 0 (S (length q))) as (q' & E & P & H & R).
      + lia.
      + cbn. rewrite app_length. cbn. lia.
      + lia.
      + rewrite Ev. split.
        * intros i a b Hi _ Hi0 Hp0 Ea Eb. assert (Hpi : (i - 1) / 2 < i) by (apply parent_lt; lia).
          apply (Hb i a b); [lia| |].
          -- destruct i as [|i]; [lia|]. cbn in Ea |- *. rewrite nth_error_app1 in Ea |- * by lia. exact Ea.
          -- destruct ((i - 1) / 2) as [|j] eqn:Ej; [lia|]. cbn in Eb |- *. rewrite nth_error_app1 in Eb |- * by lia. exact Eb.
        * intros i a b Hi Ep Hlt. lia.
      + rewrite Ev in P, R. assert (Lq : length q' = S (S (length q))) by (rewrite (Permutation_length P); cbn; rewrite app_length; cbn; lia).
        destruct q' as [|q1 q'] using rev_ind; [discriminate|clear IHq']. rewrite app_length in Lq. cbn in Lq.
        assert (q1 = x) as ->.
        { specialize (R (S (length q)) ltac:(lia)). change (q0 :: q ++ [x]) with ((q0 :: q) ++ [x]) in R.
          rewrite !nth_error_app2 in R by (cbn [length]; lia). cbn [length] in R. rewrite Nat.sub_diag in R.
          replace (S (length q) - length q') with 0 in R by lia. cbn in R. congruence. }
        exists q'. split; [exact E|]. split.
        * intros i a b Hi Ea Eb. assert (i < length q') by (apply nth_error_Some; congruence). pose proof (parent_lt i Hi).
          apply (H i a b); [lia|lia| |]; rewrite nth_error_app1 by lia; assumption.
        * change (q0 :: q ++ [x]) with ((q0 :: q) ++ [x]) in P. apply Permutation_app_inv_r in P. rewrite P.
          change (q0 :: q) with ([q0] ++ q). apply Permutation_app_comm.
    - destruct q as [|y q]; [|cbn in Hl; lia]. exists []. split; [reflexivity|]. split; [apply heap_nil|reflexivity].
  Qed.

  Lemma gnu_make_from_ok len : forall parent q, length q = len -> parent < len -> heap_from (S parent) len q ->
    exists q', gnu_make_from key q parent len = Ok q' /\ Permutation q' q /\ heap_from 0 len q'.
  Proof.
    assert (Hstep : forall parent q, length q = len -> parent < len -> heap_from (S parent) len q ->
      exists value q', get q parent = Ok value /\ gnu_adjust key q parent len value = Ok q' /\ Permutation q' q /\ heap_from parent len q').
    { intros parent q Hl Hp H. destruct (get_some q parent) as (value & Ev & Gv); [lia|]. pose proof (upd_id _ _ _ Ev) as Eu.
      destruct (gnu_adjust_ok value q parent len) as (q' & E & P & Hh & _); [lia|lia|lia| |].
      - rewrite Eu. split.
        + intros i a b Hi Hti Hih Hph Ea Eb. apply (H i a b Hi); auto. lia.
        + intros i a b Hi Ep Hlt. lia.
      - rewrite Eu in P. exists value, q'. auto. }
    induction parent as [|parent IH]; intros q Hl Hp H; destruct (Hstep _ q Hl Hp H) as (value & q1 & G & E & P & H1); cbn [gnu_make_from]; rewrite G; cbn [bind]; rewrite E; cbn [bind].
    - exists q1. auto.
    - destruct (IH q1) as (q' & E' & P' & H'); [rewrite (Permutation_length P); exact Hl|lia|exact H1|]. exists q'. split; [exact E'|].
      split; [now rewrite P'|exact H'].
  Qed.
  Lemma gnu_make_ok q : exists q', gnu_make_heap key q = Ok q' /\ is_heap key q' /\ Permutation q' q.
  Proof.
    unfold gnu_make_heap. destruct (Nat.ltb_spec (length q) 2) as [Hl|Hl].
    - exists q. split; [reflexivity|]. split; [|reflexivity]. intros i x y Hi Ex Ey. assert (i < length q) by (apply nth_error_Some; congruence). lia.
    - pose proof (Nat.div_mod (length q - 2) 2 ltac:(lia)) as D. pose proof (Nat.mod_upper_bound (length q - 2) 2 ltac:(lia)) as M.
      destruct (gnu_make_from_ok (length q) ((length q - 2) / 2) q eq_refl) as (q' & E & P & H); [lia| |].
      + intros i x y Hi Hp Ex Ey. destruct (parent_bounds i ltac:(lia)); lia.
      + exists q'. split; [exact E|]. split; [|exact P]. apply (heap_from_is_heap q' (length q)); [|exact H]. rewrite (Permutation_length P). lia.
  Qed.
End Gnu.

Lemma gnu_heap_ok A : std_heap (gnu_heap A).
Proof.
  intros key. split; [|split].
  - intros q x H. cbn. destruct (gnu_push_ok key q x H) as (q' & E & H1 & H2). rewrite E. auto.
  - intros x q H. cbn. destruct (gnu_pop_ok key x q H) as (q' & E & H1 & H2). rewrite E. cbn [result]. eauto.
  - intros q. cbn. destruct (gnu_make_ok key q) as (q' & E & H1 & H2). rewrite E. auto.
Qed.
