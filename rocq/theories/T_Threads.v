(** C42 for any number of threads, each making any number of lookups: when they race, and what they reply when they do not. *)
From Verif Require Import Base S_Order S_Vocab S_Completions M_Fc M_IntFc M_Conc S_Conc P_Fc P_IntFc P_Conc P_Threads P_Decode T_Fc T_IntFc T_Conc.
Local Open Scope nat_scope.

Lemma threads_nth d dc ts : forall out i, nth_error (threads d dc out ts) i = option_map (run_all d dc (out + i)) (nth_error ts i).
Proof.
  induction ts as [|ls ts IH]; intros out [|i]; cbn [threads nth_error option_map]; [reflexivity..|now rewrite Nat.add_0_r|]. rewrite IH. now replace (out + 1 + i) with (out + S i) by lia.
Qed.
Lemma threads_length d dc ts : forall out, length (threads d dc out ts) = length ts.
Proof. induction ts as [|ls ts IH]; intros out; cbn [threads length]; [reflexivity|]. now rewrite IH. Qed.
Lemma memory_of_arr n m i : memory_of n m -> i < 6 + n -> i < length m /\ length (arr m i) = nth i ([256; 256; 256; 128; 128; 128] ++ repeat 256 n) 0.
Proof.
  intros H Hi. assert (Hl : length m = 6 + n) by (rewrite <- (map_length (@length N)), H, app_length, repeat_length; reflexivity). split; [lia|].
  rewrite <- H. unfold arr. change 0 with (length (@nil N)). now rewrite map_nth.
Qed.
Lemma memory_of_six n m : memory_of n m -> six_arrays m.
Proof.
  intros H. split; [unfold arrays; pose proof (memory_of_arr n m 5 H ltac:(lia)); lia|]. intros i Hi. destruct (memory_of_arr n m i H ltac:(lia)) as (_ & ->).
  now rewrite app_nth1 by (cbn; lia).
Qed.
Lemma memory_of_out n m i : memory_of n m -> i < n -> 6 + i < length m /\ length (arr m (6 + i)) = 256.
Proof.
  intros H Hi. destruct (memory_of_arr n m (6 + i) H ltac:(lia)) as (H1 & ->). split; [exact H1|]. rewrite app_nth2 by (cbn; lia). cbn [length].
  replace (6 + i - 6) with i by lia. clear - Hi. revert i Hi. induction n as [|n IH]; intros [|i] Hi; cbn; [lia..|reflexivity|apply IH; lia].
Qed.

Section Threads.
  Context (terms cs : list (list N)) (d dc : fcd).
  Hypothesis L : fc_layout d terms.
  Hypothesis Lc : ifc_layout dc cs.
  Hypothesis W : wf_vocab terms.
  Hypothesis Wc : wf_completions cs.
  Hypothesis H17 : not_multiple_of_17 (length terms).
  Hypothesis H17c : not_multiple_of_17 (length cs).
  Hypothesis Hone : forall l m out, six_arrays m -> out < length m -> length (arr m out) = 256 -> covered terms cs l ->
    exists r, answer (alone m (run d dc out l)) = Ok r /\ correct terms cs l r.

  Lemma all_correct n i ls : i < n -> Forall (covered terms cs) ls -> forall m, memory_of n m ->
    exists rs, answer (alone m (run_all d dc (6 + i) ls)) = Ok rs /\ Forall2 (correct terms cs) ls rs.
  Proof.
    intros Hi. induction 1 as [|l ls Hl Hls IH]; intros m Hm; cbn [run_all]; [exists []; split; [reflexivity|constructor]|].
    destruct (memory_of_out n m i Hm Hi) as (H1 & H2). destruct (Hone l m (6 + i) (memory_of_six n m Hm) H1 H2 Hl) as (r & E & Hr).
    rewrite alone_pbind. destruct (alone m (run d dc (6 + i) l)) as [[r' m']| | |] eqn:Ea; cbn [answer bind] in E; try discriminate. injection E as ->. cbn [bind].
    assert (Hm' : memory_of n m') by (unfold memory_of; rewrite (solo_shape _ _ _ _ (solo_alone _ _ _ _ Ea)); exact Hm).
    destruct (IH m' Hm') as (rs & E & Hrs). rewrite answer_ret, E. cbn [bind]. exists (r :: rs). split; [reflexivity|]. now constructor.
  Qed.

  Definition sets (ts : list (list lookup)) (i b : nat) : Prop :=
    exists ls, nth_error ts i = Some ls /\ (b = 6 + i \/ exists l, In l ls /\ static_of l b /\ decodes terms cs l).
  Lemma run_all_touches out ls : touches (fun b => b = out \/ exists l, In l ls /\ static_of l b /\ decodes terms cs l) (run_all d dc out ls).
  Proof.
    induction ls as [|l ls IH]; cbn [run_all]; [constructor|]. apply touches_pbind.
    - eapply touches_weaken; [|apply (run_touches_decoding terms cs d dc L Lc W Wc H17 H17c)]. intros b [->|H]; [now left|right]. exists l. cbn. tauto.
    - intros r. apply touches_pbind; [|intros; constructor]. eapply touches_weaken; [|exact IH]. intros b [->|(l' & H & H')]; [now left|right]. exists l'. cbn. tauto.
  Qed.
  Lemma threads_touch ts : all_touch (sets ts) (threads d dc 6 ts).
  Proof.
    intros i p Hp. rewrite threads_nth in Hp. destruct (nth_error ts i) as [ls|] eqn:E; [|discriminate]. injection Hp as <-.
    eapply touches_weaken; [|apply run_all_touches]. intros b Hb. exists ls. split; [exact E|exact Hb].
  Qed.
  Lemma sets_apart ts : ~ clash terms cs ts -> apart (sets ts).
  Proof.
    assert (Hst : forall l b, static_of l b -> b < 6) by (intros l b; destruct l; cbn; unfold B_locate, B_left, B_right, B_ilocate, B_ileft, B_iright; lia).
    intros Hc i j b Hne (ls1 & E1 & [->|(l1 & I1 & S1 & D1)]) (ls2 & E2 & [H|(l2 & I2 & S2 & D2)]).
    - lia.
    - specialize (Hst l2 _ S2). lia.
    - subst b. specialize (Hst l1 _ S1). lia.
    - apply Hc. exists i, j, ls1, ls2, l1, l2. pose proof (same_static l1 l2 b S1 S2). auto 10.
  Qed.

  (** A thread gets to the first write of any of its lookups that decode. *)
  Lemma thread_front n i ls l : i < n -> Forall (covered terms cs) ls -> In l ls -> decodes terms cs l -> forall m, memory_of n m ->
    exists m' p', solo m (run_all d dc (6 + i) ls) m' p' /\ writes_first (scanned l) p'.
  Proof.
    intros Hi H. induction H as [|l0 ls Hl Hls IH]; intros Hin Hd m Hm; [destruct Hin|]. cbn [run_all].
    destruct (memory_of_out n m i Hm Hi) as (H1 & H2). destruct (Hone l0 m (6 + i) (memory_of_six n m Hm) H1 H2 Hl) as (r & E & Hr).
    destruct Hin as [->|Hin].
    - destruct (decoding_front terms cs d dc L Lc W Wc H17 H17c (6 + i) l m r Hl Hd E) as (m' & p' & Hs & Hw). exists m'. eexists. split; [apply solo_pbind; exact Hs|].
      now apply writes_pbind.
    - destruct (alone m (run d dc (6 + i) l0)) as [[r' m']| | |] eqn:Ea; cbn [answer bind] in E; try discriminate. pose proof (solo_alone _ _ _ _ Ea) as Hs.
      assert (Hm' : memory_of n m') by (unfold memory_of; rewrite (solo_shape _ _ _ _ Hs); exact Hm).
      destruct (IH Hin Hd m' Hm') as (m2 & p' & Hs' & Hw). exists m2. eexists. split.
      + eapply solo_trans; [apply solo_pbind; exact Hs|]. cbn [pbind]. apply solo_pbind. exact Hs'.
      + now apply writes_pbind.
  Qed.
  Lemma clash_races ts m : memory_of (length ts) m -> Forall (Forall (covered terms cs)) ts -> clash terms cs ts ->
    exists m' ps, reach m (threads d dc 6 ts) m' ps /\ racing ps.
  Proof.
    intros Hm Hcov (i & j & ls1 & ls2 & l1 & l2 & Hne & E1 & E2 & I1 & I2 & Hs & D1 & D2).
    assert (Hi : i < length ts) by (apply nth_error_Some; congruence). assert (Hj : j < length ts) by (apply nth_error_Some; congruence).
    rewrite Forall_forall in Hcov. pose proof (Hcov _ (nth_error_In _ _ E1)) as C1. pose proof (Hcov _ (nth_error_In _ _ E2)) as C2.
    destruct (thread_front _ i ls1 l1 Hi C1 I1 D1 m Hm) as (m1 & p1 & R1 & (x1 & k1 & ->)).
    assert (Hm1 : memory_of (length ts) m1) by (unfold memory_of; rewrite (solo_shape _ _ _ _ R1); exact Hm).
    destruct (thread_front _ j ls2 l2 Hj C2 I2 D2 m1 Hm1) as (m2 & p2 & R2 & (x2 & k2 & ->)).
    exists m2. eexists. split.
    - eapply reach_trans; [apply (solo_reach _ _ _ _ R1 _ i); rewrite threads_nth, E1; reflexivity|].
      apply (solo_reach _ _ _ _ R2 _ j). rewrite nth_upd_other by exact Hne. rewrite threads_nth, E2. reflexivity.
    - exists i, j. do 2 eexists. exists (scanned l1), 0, true, true. split; [exact Hne|].
      split; [rewrite nth_upd_other by auto; apply nth_upd_same; now rewrite threads_length|].
      split; [apply nth_upd_same; now rewrite upd_length, threads_length|]. split; [reflexivity|]. rewrite (same_scanned l1 l2 Hs). split; [reflexivity|]. now left.
  Qed.
  Lemma race_iff ts m : memory_of (length ts) m -> Forall (Forall (covered terms cs)) ts ->
    ((exists m' ps, reach m (threads d dc 6 ts) m' ps /\ racing ps) <-> clash terms cs ts).
  Proof.
    intros Hm Hcov. split; [|now apply clash_races]. intros (m' & ps & R & Hr).
    destruct Hr as (i & j & p & q & b & off & w1 & w2 & Hne & Hp & Hq & N1 & N2 & _).
    pose proof (reach_touch (sets ts) _ _ _ _ R (threads_touch ts)) as Ht.
    pose proof (touches_next _ p _ _ _ (Ht i p Hp) N1) as (ls1 & E1 & S1). pose proof (touches_next _ q _ _ _ (Ht j q Hq) N2) as (ls2 & E2 & S2).
    assert (Hst : forall l b, static_of l b -> b < 6) by (intros l b0; destruct l; cbn; unfold B_locate, B_left, B_right, B_ilocate, B_ileft, B_iright; lia).
    destruct S1 as [->|(l1 & I1 & S1 & D1)], S2 as [H|(l2 & I2 & S2 & D2)].
    - lia.
    - specialize (Hst l2 _ S2). lia.
    - subst b. specialize (Hst l1 _ S1). lia.
    - exists i, j, ls1, ls2, l1, l2. pose proof (same_static l1 l2 b S1 S2). auto 10.
  Qed.
  Lemma replies_correct ts m rs : memory_of (length ts) m -> Forall (Forall (covered terms cs)) ts -> ~ clash terms cs ts ->
    interleaved m (threads d dc 6 ts) rs -> exists rss, rs = map Ok rss /\ Forall2 (Forall2 (correct terms cs)) ts rss.
  Proof.
    intros Hm Hcov Hc (m' & R).
    assert (Hlen : length rs = length ts).
    { assert (H : length (map (@Ret (list reply)) rs) = length (threads d dc 6 ts)).
      { clear - R. remember (map (@Ret (list reply)) rs) as ps. clear Heqps rs. induction R as [|m ps0 i p m1 p1 m2 ps2 Hi E R IH]; [reflexivity|]. rewrite IH. apply upd_length. }
      rewrite map_length, threads_length in H. exact H. }
    assert (H : forall i ls, nth_error ts i = Some ls -> exists r, nth_error rs i = Some (Ok r) /\ Forall2 (correct terms cs) ls r).
    { intros i ls E. rewrite Forall_forall in Hcov. pose proof (Hcov _ (nth_error_In _ _ E)) as Hls.
      assert (Hi : i < length ts) by (apply nth_error_Some; congruence). destruct (all_correct _ i ls Hi Hls m Hm) as (r & Er & Hr).
      destruct (reach_answers (sets ts) _ _ _ _ (sets_apart ts Hc) R (threads_touch ts) i (run_all d dc (6 + i) ls)) as (p' & Ep & Ea); [rewrite threads_nth, E; reflexivity|].
      rewrite nth_error_map in Ep. destruct (nth_error rs i) as [x|] eqn:Ex; [|discriminate]. injection Ep as <-. rewrite Er in Ea.
      exists r. split; [|exact Hr]. f_equal. destruct x; cbn in Ea; congruence. }
    clear - H Hlen. revert rs Hlen H. induction ts as [|ls ts IH]; intros [|x rs] Hlen H; cbn [length] in Hlen; try lia.
    - exists []. split; [reflexivity|constructor].
    - destruct (H 0 ls eq_refl) as (r & Er & Hr). injection Er as ->. destruct (IH rs) as (rss & -> & Hrss); [lia|intros i; exact (H (S i))|].
      exists (r :: rss). split; [reflexivity|]. now constructor.
  Qed.
End Threads.

(** Any number of threads over one vocabulary and one list of completions, each making lookups one after the other: two of them can come to access the same
    element of a static array at the same time, one writing (undefined in C++), if and only if two of them decode a bucket with the same function. *)
Theorem C42_race_exact_partial : forall terms cs, wf_vocab terms -> not_multiple_of_17 (length terms) -> wf_completions cs -> not_multiple_of_17 (length cs) ->
  exists d dc, fc_build terms = Ok d /\ ifc_build (map terminated cs) = Ok dc /\
    forall ts m, memory_of (length ts) m -> Forall (Forall (covered terms cs)) ts ->
    ((exists m' ps, reach m (threads d dc 6 ts) m' ps /\ racing ps) <-> clash terms cs ts).
Proof.
  intros terms cs H1 H2 H3 H4. destruct (alone_correct terms cs H1 H2 H3 H4) as (d & dc & Ed & Edc & H). exists d, dc. split; [exact Ed|]. split; [exact Edc|].
  destruct (fc_build_layout terms (proj1 (proj2 H1))) as (d' & E' & L). rewrite Ed in E'. injection E' as <-.
  destruct (ifc_build_layout cs H3) as (dc' & E' & Lc). rewrite Edc in E'. injection E' as <-.
  intros ts m. now apply race_iff.
Qed.
Print Assumptions C42_race_exact_partial.

(** Otherwise every reply of every thread is correct, in every interleaving, and the threads do finish. *)
Theorem C42_threads_partial : forall terms cs, wf_vocab terms -> not_multiple_of_17 (length terms) -> wf_completions cs -> not_multiple_of_17 (length cs) ->
  exists d dc, fc_build terms = Ok d /\ ifc_build (map terminated cs) = Ok dc /\
    forall ts m, memory_of (length ts) m -> Forall (Forall (covered terms cs)) ts -> ~ clash terms cs ts ->
    (exists rs, interleaved m (threads d dc 6 ts) rs) /\
    forall rs, interleaved m (threads d dc 6 ts) rs -> exists rss, rs = map Ok rss /\ Forall2 (Forall2 (correct terms cs)) ts rss.
Proof.
  intros terms cs H1 H2 H3 H4. destruct (alone_correct terms cs H1 H2 H3 H4) as (d & dc & Ed & Edc & H). exists d, dc. split; [exact Ed|]. split; [exact Edc|].
  destruct (fc_build_layout terms (proj1 (proj2 H1))) as (d' & E' & L). rewrite Ed in E'. injection E' as <-.
  destruct (ifc_build_layout cs H3) as (dc' & E' & Lc). rewrite Edc in E'. injection E' as <-.
  intros ts m Hm Hcov Hc. split; [apply interleaved_exists|]. intros rs. now apply replies_correct.
Qed.
Print Assumptions C42_threads_partial.

(** Four threads that do not clash, although two of them look up terms; and two that do. *)
Example C42_threads_nonvacuous :
  let quiet := [[Locate [98%N]; Extract 3; Locate [99%N]]; [LocatePrefix [98%N]; Locate [97%N]; CLocate [2%N]]; [Extract 1; CLocatePrefix [] 2 3]; [LocatePrefix []; CLocate [1%N]; CExtract 2]] in
  let noisy := [[Extract 1; Locate [98%N]]; [LocatePrefix [98%N]; Locate [99%N]]] in
  wf_vocab abc /\ not_multiple_of_17 (length abc) /\ wf_completions c123 /\ not_multiple_of_17 (length c123) /\
  memory_of (length quiet) (map (fun n => repeat 7%N n) [256; 256; 256; 128; 128; 128; 256; 256; 256; 256]) /\
  Forall (Forall (covered abc c123)) quiet /\ ~ clash abc c123 quiet /\
  Forall (Forall (covered abc c123)) noisy /\ clash abc c123 noisy.
Proof.
  cbv zeta. split; [apply wf_vocabb_wf; vm_compute; reflexivity|]. split; [vm_compute; discriminate|]. split; [apply wf_completionsb_wf; vm_compute; reflexivity|].
  split; [vm_compute; discriminate|]. split; [vm_compute; reflexivity|].
  split; [repeat (apply Forall_cons || apply Forall_nil); cbn; lia || auto|]. split.
  - intros (i & j & ls1 & ls2 & l1 & l2 & Hne & E1 & E2 & I1 & I2 & Hs & D1 & D2).
    do 4 (destruct i as [|i]; [do 4 (destruct j as [|j];
      [try lia; cbn in E1, E2; injection E1 as <-; injection E2 as <-; cbn in I1, I2;
       repeat (destruct I1 as [<-|I1] || destruct I1); cbn in D1; try contradiction;
       repeat (destruct I2 as [<-|I2] || destruct I2); cbn in D2; cbn in Hs; try contradiction;
       try (now specialize (D1 0)); try (now specialize (D2 0))|]); destruct j; discriminate E2|]); destruct i; discriminate E1.
  - split; [repeat (apply Forall_cons || apply Forall_nil); cbn; lia || auto|]. exists 0, 1. do 4 eexists. split; [lia|]. split; [reflexivity|]. split; [reflexivity|].
    split; [right; left; reflexivity|]. split; [right; left; reflexivity|]. split; [exact I|].
    split; intros [|i]; cbn; try discriminate; rewrite <- !plus_n_Sm; destruct (i + _); discriminate.
Qed.
