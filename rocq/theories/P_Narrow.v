(** uint_vec with narrow integers. *)
From Coq Require Import Sorted Lia.
From Verif Require Import Base M_Find S_Search P_Find M_Narrow S_Narrow.
Local Open Scope nat_scope.

Section Narrow.
  Variable bits : nat.
  Notation M := (2 ^ N.of_nat bits)%N.
  Lemma narrow_id x : (x < M)%N -> narrow bits x = x.
  Proof. intros H. unfold narrow. now apply N.mod_small. Qed.

  Lemma narrow_sums_ok : forall from ps end_ run within prev lst l,
    range_sums from ps end_ run within prev lst = Ok l -> Forall (fun x => x < M)%N l -> narrow_sums bits from ps end_ run within prev lst = Ok l.
  Proof.
    induction from as [|v from IH]; intros ps end_ run within prev lst l E H; [exact E|]. cbn [range_sums narrow_sums] in *.
    destruct (if within =? run then _ else _) as [[[[[ps1 e1] r1] w1] p1]| | |]; try discriminate. cbn [bind] in *.
    destruct (range_sums from ps1 e1 r1 (w1 + 1) p1 (v + p1)%N) as [rest| | |] eqn:Er; try discriminate. cbn [bind] in E. injection E as <-.
    inversion H as [|? ? H1 H2]; subst. rewrite (narrow_id v) by lia. rewrite (narrow_id (v + p1)%N) by exact H1. rewrite (IH _ _ _ _ _ _ _ Er H2). reflexivity.
  Qed.
  Lemma uv_build_ok from ptrs l : build_range_sums from ptrs = Ok l -> Forall (fun x => x < M)%N l -> uv_build bits from ptrs = Ok l.
  Proof. unfold build_range_sums, uv_build. destruct ptrs as [|a [|b ps]]; try discriminate. apply narrow_sums_ok. Qed.

  Lemma lt_sortedN g : StronglySorted N.lt g -> sortedN g.
  Proof. intros H. unfold sortedN. induction H as [|x g Hs IH Hx]; constructor; [exact IH|]. eapply Forall_impl; [|exact Hx]. cbn. lia. Qed.
  Lemma last_map_add g : forall p, last (map (fun v => (v + p)%N) g) p = (last g 0 + p)%N.
  Proof. intros p. induction g as [|x g IH]; [reflexivity|]. destruct g as [|y g]; [reflexivity|]. exact IH. Qed.
  Lemma gsums_total : forall gs prev, Forall (StronglySorted N.lt) gs -> Forall (fun x => x <= level_total gs + prev)%N (concat (gsums prev gs)).
  Proof.
    induction gs as [|g gs IH]; intros prev H; cbn [gsums concat]; [constructor|]. inversion H as [|? ? H1 H2]; subst. apply Forall_app. unfold level_total in *. cbn [map fold_right].
    split.
    - apply Forall_map. apply Forall_forall. intros v Hv. pose proof (sortedN_last g 0%N v (lt_sortedN g H1) Hv). lia.
    - rewrite last_map_add. eapply Forall_impl; [|exact (IH (last g 0 + prev)%N H2)]. cbn. intros. lia.
  Qed.
  Lemma level_fits gs vals : Forall (StronglySorted N.lt) gs -> (level_total gs < M)%N -> build_range_sums (concat gs) (group_pointers gs) = Ok vals -> Forall (fun x => x < M)%N vals.
  Proof.
    intros Hs Ht E. destruct gs as [|g gs]; [discriminate|]. rewrite level_vals in E by discriminate. injection E as <-.
    eapply Forall_impl; [|exact (gsums_total (g :: gs) 0 Hs)]. intros x Hx. cbv beta in *. lia.
  Qed.

  Lemma sorted_nth g : StronglySorted N.lt g -> forall i j, i < j -> j < length g -> (nth i g 0 < nth j g 0)%N.
  Proof.
    intros H. induction H as [|x g Hs IH Hx]; intros i j Hij Hj; [cbn in Hj; lia|]. destruct j as [|j]; [lia|]. cbn [length] in Hj. destruct i as [|i]; cbn [nth].
    - rewrite Forall_forall in Hx. apply Hx. apply nth_In. lia.
    - apply IH; lia.
  Qed.
  Lemma group_nth : forall gs k p, group_begin gs k <= p < group_begin gs (S k) ->
    nth p (concat gs) 0%N = nth (p - group_begin gs k) (nth k gs []) 0%N /\ p - group_begin gs k < length (nth k gs []).
  Proof.
    induction gs as [|g gs IH]; intros k p Hp; [unfold group_begin in Hp; rewrite !firstn_nil in Hp; cbn in Hp; lia|].
    destruct k as [|k].
    - rewrite group_begin_cons in Hp. unfold group_begin in *. cbn [firstn concat length nth] in *. rewrite Nat.sub_0_r, app_nth1 by lia. split; [reflexivity|lia].
    - rewrite !group_begin_cons in *. cbn [concat nth]. rewrite app_nth2 by lia. destruct (IH k (p - length g) ltac:(lia)) as [A B].
      rewrite A. replace (p - (length g + group_begin gs k)) with (p - length g - group_begin gs k) by lia. split; [reflexivity|exact B].
  Qed.
  Lemma groups_increasing gs k : Forall (StronglySorted N.lt) gs -> increasing_on (concat gs) (group_begin gs k) (group_begin gs (S k)).
  Proof.
    intros H i j Hi Hij Hj. destruct (group_nth gs k i ltac:(lia)) as [-> _]. destruct (group_nth gs k j ltac:(lia)) as [-> B]. apply sorted_nth; [|lia|exact B].
    destruct (Nat.lt_ge_cases k (length gs)) as [L|L]; [|rewrite nth_overflow in B by lia; cbn in B; lia]. rewrite Forall_forall in H. apply H. now apply nth_In.
  Qed.

  Lemma uv_level gs k : k < length gs -> nth k gs [] <> [] -> Forall (StronglySorted N.lt) gs -> (level_total gs < M)%N ->
    exists vals, uv_build bits (concat gs) (group_pointers gs) = Ok vals /\
      forall acc itr, reads vals acc itr ->
      (forall id, (id < M)%N -> exists r, uv_find bits acc itr (group_begin gs k) (group_begin gs (S k)) id = Ok r /\
         is_position (concat gs) (group_begin gs k) (group_begin gs (S k)) id r) /\
      (forall x y, (x < y)%N -> exists q, uv_find_range acc itr (group_begin gs k) (group_begin gs (S k)) x y = Ok q /\
         is_value_range (concat gs) (group_begin gs k) (group_begin gs (S k)) x y q).
  Proof.
    intros Hk Hne Hs Ht. pose proof (groups_increasing gs k Hs) as Hinc. pose proof (group_end_pos gs k Hk Hne) as He.
    assert (E : build_range_sums (concat gs) (group_pointers gs) = Ok (concat (gsums 0 gs))) by (apply level_vals; intros ->; cbn in Hk; lia).
    pose proof (level_fits gs _ Hs Ht E) as Hfit. exists (concat (gsums 0 gs)). split; [now apply uv_build_ok|].
    intros acc itr Hr. split; [|intros x y Hxy; now apply group_uv_find_range_ok].
    intros id Hid. pose proof (lift_inc gs k Hinc He) as Hv. unfold uv_find. set (vals := concat (gsums 0 gs)) in *. set (b := group_begin gs k) in *. set (e := group_begin gs (S k)) in *.
    pose proof (lift_e gs k : e <= length vals) as Hle. pose proof (group_begin_mono gs k : b <= e) as Hbe. destruct Hr as [Ha Hi].
    set (pu := match b with O => 0%N | S b => nth b vals 0%N end).
    assert (Epu : prev_upper acc b = Ok pu) by (unfold prev_upper, pu; destruct b; [reflexivity|apply Ha; lia]).
    assert (Hpu : (pu < M)%N). { unfold pu. destruct b as [|b0]; [lia|]. rewrite Forall_forall in Hfit. apply Hfit. apply nth_In. lia. }
    pose proof (lift_nth gs k) as Hlift. cbv zeta in Hlift. fold b e vals pu in Hlift.
    rewrite Epu. cbn [bind]. destruct e as [|hi] eqn:Ee; [lia|]. rewrite (narrow_id id Hid).
    destruct (find_ok acc itr vals Ha Hi (narrow bits (id + pu)) b hi) as (r & Er & Hp); [lia|replace (hi + 1) with (S hi) by lia; exact Hv|].
    exists r. split; [exact Er|]. replace (hi + 1) with (S hi) in Hp by lia.
    assert (Hlt : forall p, b <= p < S hi -> (nth p vals 0 < M)%N) by (intros p Hpp; rewrite Forall_forall in Hfit; apply Hfit, nth_In; lia).
    destruct (N.lt_ge_cases (id + pu) M) as [L|L].
    - rewrite (narrow_id _ L) in Hp. destruct r as [p|]; cbn in *.
      + destruct Hp as [H1 H2]. split; [exact H1|]. rewrite Hlift in H2 by lia. lia.
      + intros p Hpp. specialize (Hp p Hpp). rewrite Hlift in Hp by lia. lia.
    - assert (En : narrow bits (id + pu) = (id + pu - M)%N).
      { unfold narrow. symmetry. apply (N.mod_unique _ _ 1); lia. }
      rewrite En in Hp. destruct r as [p|]; cbn in *.
      + destruct Hp as [H1 H2]. rewrite Hlift in H2 by lia. lia.
      + intros p Hpp X. specialize (Hlt p Hpp). rewrite Hlift in Hlt by lia. lia.
  Qed.
End Narrow.
