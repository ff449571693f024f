(** The completion trie: complete searches and the theorem-level statements. *)
From Coq Require Import Sorted.
From Verif Require Import Base S_Order P_Order M_Find S_Search P_Find S_Completions M_Trie S_Trie P_TrieBuild P_Trie.
Local Open Scope nat_scope.

Section Search.
  Variable cs : list (list N).
  Hypothesis Hwf : wf_completions cs.
  Let n := length cs.
  Let L := num_levels cs.
  Notation Tc := (tc cs).
  Notation Newn := (newn cs).
  Notation Brk := (brk cs).
  Notation Opn := (opn cs).
  Notation Key := (key cs).
  Notation Starts := (starts cs).
  Notation Closes := (closes cs).
  Lemma area_root : area cs 0 0 n /\ begins cs [] 0 n.
  Proof.
    pose proof (n_pos cs Hwf) as Hn. fold n in Hn. split.
    - split; [fold n; lia|]. split; [reflexivity|]. split; [apply brk_n|]. split; reflexivity.
    - intros j Hj. fold n in Hj. split; [lia|]. intros _. apply prefix_nil.
  Qed.

  Lemma continues_key p a b j : continues p a b (Tc j) <->
    is_prefix p (Tc j) /\ Opn (length p) j = true /\ (a <= Key (length p) j <= b)%N.
  Proof.
    unfold continues, opn, key. rewrite Nat.ltb_lt. split.
    - intros (x & rest & E & Hx). rewrite E. split; [now exists (x :: rest)|].
      rewrite app_length, app_nth2, Nat.sub_diag by lia. cbn. split; [lia|exact Hx].
    - intros ([u E] & Hl & Hx). rewrite E in *. rewrite app_length in Hl. destruct u as [|x u]; [cbn in Hl; lia|].
      rewrite app_nth2, Nat.sub_diag in Hx by lia. exists x, u. auto.
  Qed.

  (** The node of level [i] holding completion [j]. *)
  Lemma node_of i lo hi j : area cs i lo hi -> (forall j, lo <= j < hi -> Opn i j = true) -> lo <= j < hi ->
    exists s, nth_error (Starts i) (cnt (Newn i) (S j) - 1) = Some s /\
      cnt (Newn i) lo < cnt (Newn i) (S j) <= cnt (Newn i) hi /\ lo <= s <= j /\ Key i s = Key i j.
  Proof.
    intros Ha Ho Hj. pose proof Ha as ((Hlo & Hhi) & Hbl & Hbh & _). fold n in Hhi.
    pose proof (cnt_mono (Newn i) (S j) hi ltac:(lia)) as M1.
    pose proof (cnt_mono (Newn i) (S lo) (S j) ltac:(lia)) as M2. rewrite cnt_S in M2.
    replace (Newn i lo) with true in M2 by (unfold newn; now rewrite Hbl, (Ho lo) by lia).
    pose proof (cnt_mono (Newn i) hi n ltac:(lia)) as M3. fold n in M3.
    set (k := cnt (Newn i) (S j) - 1) in *.
    destruct (starts_get cs i k ltac:(fold n; lia)) as (s & Es & Es'). exists s. split; [exact Es|]. split; [lia|].
    pose proof (proj1 (pos_range cs i lo hi k s Es) ltac:(lia)) as Hsr.
    pose proof (sel_nth_inv _ _ _ _ Es) as (_ & Hsnew & Hsc).
    assert (Hsj : s <= j).
    { destruct (Nat.le_gt_cases s j); [assumption|]. pose proof (cnt_mono (Newn i) (S j) s ltac:(lia)). lia. }
    split; [lia|]. apply (area_const cs Hwf i lo hi s j Ha); try lia.
    intros u Hu. destruct (Brk i u) eqn:E; [|reflexivity]. exfalso.
    assert (Newn i u = true) by (unfold newn; rewrite E, (Ho u) by lia; reflexivity).
    pose proof (cnt_mono (Newn i) (S u) (S j) ltac:(lia)) as M4. rewrite cnt_S, H in M4.
    pose proof (cnt_mono (Newn i) (S s) u ltac:(lia)) as M5. rewrite cnt_S, Hsnew in M5. lia.
  Qed.

  Variable t : trie.
  Hypothesis Hnodes : forall i, i < L -> exists nd, nth_error (tr_nodes t) i = Some nd /\ holds (vals cs i) nd.
  Hypothesis Hnlen : length (tr_nodes t) = L.
  Hypothesis Hptrs : forall i, i < L - 1 -> exists q, nth_error (tr_ptrs t) i = Some q /\ holds_nat (final_ptrs cs i) q.
  Hypothesis Hleft : forall i, i < L -> exists q, nth_error (tr_left t) i = Some q /\ holds_nat (sub_index 0 (Starts i)) q.
  Hypothesis Hsizes : forall i, i < L -> exists q, nth_error (tr_sizes t) i = Some q /\
    holds_nat (sums_of (Starts i) (map pred (Closes i)) 0) q.

  Lemma front_size : exists nd, get (tr_nodes t) 0 = Ok nd /\ q_size nd = cnt (Newn 0) n /\ cnt (Newn 0) 0 = 0.
  Proof.
    destruct (Hnodes 0) as (nd & E & Hs & _); [pose proof (L_pos cs Hwf); unfold L; lia|].
    exists nd. split; [now apply get_ok|]. split; [|reflexivity].
    rewrite Hs. unfold vals. rewrite concat_gsums_length. destruct (groups_concat cs 0) as [-> _]. apply nodes_len.
  Qed.

  Lemma descend_ok : forall rest p i lo hi,
    area cs i lo hi -> begins cs p lo hi -> length p = i -> positive (p ++ rest) ->
    exists r, trie_descend t rest i (cnt (Newn i) lo) (cnt (Newn i) hi) = Ok r /\
    match r with
    | None => forall j, j < n -> ~ is_prefix (p ++ rest) (Tc j)
    | Some (i', pb, pe) => exists lo' hi', i' = length (p ++ rest) /\
        area cs i' lo' hi' /\ begins cs (p ++ rest) lo' hi' /\
        pb = cnt (Newn i') lo' /\ pe = cnt (Newn i') hi'
    end.
  Proof.
    induction rest as [|x rest IH]; intros p i lo hi Ha Hb Hl Hpos; cbn [trie_descend].
    - eexists. split; [reflexivity|]. cbn. rewrite app_nil_r. exists lo, hi. auto.
    - assert (Hpp : positive p) by (apply Forall_app in Hpos; tauto).
      assert (Hx : x <> 0%N) by (apply Forall_app in Hpos; destruct Hpos as [_ H]; inversion H; lia).
      destruct (search_step cs Hwf t Hnodes Hnlen Hptrs Hleft Hsizes p i lo hi x Ha Hb Hl
        (area_open cs p i lo hi Ha Hb Hl Hpp)) as (nd & E1 & r & E2 & Hr).
      rewrite E1. cbn [bind]. rewrite E2. cbn [bind]. destruct r as [pos|].
      + destruct Hr as (s & h & HA & HB & Hq). destruct (Hq Hx) as (q & E3 & E4 & E5).
        rewrite E3. cbn [bind]. rewrite E4. cbn [bind]. rewrite E5. cbn [bind].
        replace (p ++ x :: rest) with ((p ++ [x]) ++ rest) in * by (now rewrite <- app_assoc).
        replace (i + 1) with (S i) by lia.
        apply (IH (p ++ [x]) (S i) s h HA HB); [rewrite app_length; cbn; lia|exact Hpos].
      + eexists. split; [reflexivity|]. cbn. intros j Hj Hp.
        apply (Hr j Hj). apply prefix_trans with (p ++ x :: rest); [|exact Hp].
        exists rest. now rewrite <- app_assoc.
  Qed.

  Lemma left_ok i k s q : nth_error (Starts i) k = Some s -> holds_nat (sub_index 0 (Starts i)) q ->
    exists x, acc_nat q k = Ok x /\ x + k = s.
  Proof.
    intros Es Hq. assert (Hk : k < length (Starts i)) by (apply nth_error_Some; congruence).
    rewrite (holds_nat_acc _ _ _ Hq) by now rewrite sub_index_length. eexists. split; [reflexivity|].
    rewrite sub_index_nth by assumption. rewrite (nth_error_nth _ _ 0 Es).
    apply sel_nth_inv in Es. destruct Es as (_ & _ & Hc). pose proof (cnt_le (Newn i) s). lia.
  Qed.

  Lemma size_ok i k s h q : nth_error (Starts i) k = Some s -> newn cs i s = true -> node_end cs i s h ->
    holds_nat (sums_of (Starts i) (map pred (Closes i)) 0) q ->
    exists s1, acc_nat q k = Ok s1 /\ exists s0, (if k =? 0 then Ok 0 else acc_nat q (k - 1)) = Ok s0 /\
      s + (s1 - s0 + 1) = h.
  Proof.
    intros Es Hn He Hq. pose proof (closes_starts_len cs Hwf i) as Hl.
    assert (Hk : k < length (Starts i)) by (apply nth_error_Some; congruence).
    assert (Hl2 : length (Starts i) = length (map pred (Closes i))) by (rewrite map_length; lia).
    pose proof (sums_of_length _ _ 0 Hl2) as Hls.
    rewrite (holds_nat_acc _ _ _ Hq) by lia. eexists. split; [reflexivity|].
    pose proof (sums_of_nth _ _ 0 k Hl2 ltac:(lia)) as Hs. rewrite Hs.
    pose proof (sel_nth_inv _ _ _ _ Es) as (_ & _ & Hc).
    pose proof (node_close cs Hwf i s h Hn He) as Hcl. rewrite Hc in Hcl.
    pose proof He as (Hh & _).
    assert (E1 : nth k (map pred (Closes i)) 0 = h - 1).
    { change 0 with (pred 0). rewrite map_nth, (nth_error_nth _ _ 0 Hcl). lia. }
    rewrite E1, (nth_error_nth _ _ 0 Es).
    destruct k as [|k]; cbn [Nat.eqb].
    - exists 0. split; [reflexivity|]. lia.
    - rewrite (holds_nat_acc _ _ _ Hq) by lia. replace (S k - 1) with k by lia.
      eexists. split; [reflexivity|]. lia.
  Qed.

  Lemma locate_ok prefix a b : positive prefix -> (a <= b)%N ->
    exists r, trie_locate_prefix t prefix a b = Ok r /\
    match r with
    | Some (x, y) => exact_range_excl n (fun i => continues prefix a b (Tc i)) x y
    | None => forall i, i < n -> ~ continues prefix a b (Tc i)
    end.
  Proof.
    intros Hpos Hab. unfold trie_locate_prefix.
    destruct front_size as (f & Ef & Hf & H0). rewrite Ef. cbn [bind]. rewrite Hf.
    destruct area_root as [HA HB].
    destruct (descend_ok prefix [] 0 0 n HA HB eq_refl Hpos) as (d & Ed & Hd).
    rewrite H0 in Ed. rewrite Ed. cbn [bind].
    destruct d as [[[i pb] pe]|]; cbn [app] in Hd.
    2:{ eexists. split; [reflexivity|]. intros j Hj Hc. apply continues_key in Hc. now apply (Hd j Hj). }
    destruct Hd as (lo & hi & Ei & Ha & Hb & -> & ->).
    pose proof (area_open cs prefix i lo hi Ha Hb (eq_sym Ei) Hpos) as Ho.
    pose proof Ha as ((Hlo & Hhi) & Hbl & Hbh & _). fold n in Hhi.
    assert (HiL : i < L) by (apply (opn_level cs Hwf t Hnodes Hnlen Hptrs Hleft Hsizes i lo); [fold n; lia|apply Ho; lia]).
    destruct (Nat.ltb_spec i (length (tr_nodes t))); [|lia].
    destruct (Hnodes i HiL) as (nd & End & Hnd). rewrite (get_ok _ _ _ End). cbn [bind].
    destruct (level_search cs Hwf i lo hi nd Ha (Ho lo ltac:(lia)) Hnd) as [_ Hfr].
    destruct (Hfr a b Hab) as ([qb qe] & Eq & Hq). rewrite Eq. cbn [bind].
    destruct Hq as (Q1 & Q2 & Q3). cbn [fst snd] in *.
    pose proof (cnt_mono (Newn i) hi n ltac:(lia)) as Mhi.
    assert (Hkey : forall k s, nth_error (Starts i) k = Some s -> nth k (nodes_of cs i) 0%N = Key i s).
    { intros k s Es. rewrite nodes_nth by (apply nth_error_Some; congruence). now rewrite (nth_error_nth _ _ 0 Es). }
    (* which completions: through the position of their node *)
    assert (Hiff : forall j, j < n -> (continues prefix a b (Tc j) <->
      lo <= j < hi /\ qb <= cnt (Newn i) (S j) - 1 < qe)).
    { intros j Hj. rewrite continues_key, <- Ei, (Hb j Hj). split.
      - intros (A & B & C). split; [exact A|]. destruct (node_of i lo hi j Ha Ho A) as (s & Es & Hc & _ & Ek).
        apply Q3; [lia|]. rewrite (Hkey _ _ Es), Ek. exact C.
      - intros (A & B). destruct (node_of i lo hi j Ha Ho A) as (s & Es & Hc & _ & Ek).
        split; [exact A|]. split; [now apply Ho|]. rewrite <- Ek, <- (Hkey _ _ Es). apply Q3; [lia|exact B]. }
    destruct (Nat.eqb_spec qb qe) as [Eqq|Nqq].
    { eexists. split; [reflexivity|]. intros j Hj Hc. apply (Hiff j Hj) in Hc. lia. }
    destruct (Hleft i HiL) as (le & El & Hle). destruct (Hsizes i HiL) as (sz & Ez & Hsz).
    rewrite (get_ok _ _ _ El), (get_ok _ _ _ Ez). cbn [bind].
    destruct (starts_get cs i qb ltac:(fold n; lia)) as (s1 & E1 & _).
    destruct (starts_get cs i (qe - 1) ltac:(fold n; lia)) as (s2 & E2 & _).
    destruct (left_ok i qb s1 le E1 Hle) as (x1 & X1 & Y1).
    destruct (left_ok i (qe - 1) s2 le E2 Hle) as (x2 & X2 & Y2).
    destruct (child_area cs Hwf i lo hi (qe - 1) s2 Ha E2 ltac:(lia)) as (h & HA2 & Hnew2 & He2 & L2 & H2 & _).
    rewrite X1. cbn [bind].
    assert (Er : (if negb (qe - 1 =? qb) then do y <- acc_nat le (qe - 1); Ok (y + (qe - 1)) else Ok (x1 + qb)) = Ok s2).
    { destruct (Nat.eqb_spec (qe - 1) qb) as [E|E]; cbn [negb].
      - rewrite Y1. f_equal. rewrite E in E2. congruence.
      - rewrite X2. cbn [bind]. now rewrite Y2. }
    rewrite Er. cbn [bind].
    destruct (size_ok i (qe - 1) s2 h sz E2 Hnew2 He2 Hsz) as (z1 & Z1 & z0 & Z0 & Hz).
    rewrite Z1. cbn [bind]. rewrite Z0. cbn [bind]. rewrite Y1, Hz.
    eexists. split; [reflexivity|].
    pose proof (sel_nth_inv _ _ _ _ E1) as (_ & Hn1 & Hc1). pose proof (sel_nth_inv _ _ _ _ E2) as (_ & Hn2 & Hc2).
    pose proof He2 as (Hh2 & Hbh2 & Hnb2). fold n in Hh2.
    pose proof (proj1 (pos_range cs i lo hi qb s1 E1) ltac:(lia)) as R1.
    pose proof (proj1 (pos_range cs i lo hi (qe - 1) s2 E2) ltac:(lia)) as R2.
    assert (Hs12 : s1 <= s2).
    { destruct (Nat.le_gt_cases s1 s2); [assumption|]. pose proof (cnt_mono (Newn i) (S s2) s1 ltac:(lia)) as M.
      rewrite cnt_S, Hn2 in M. lia. }
    assert (C1 : cnt (Newn i) (S s1) = qb + 1) by (rewrite cnt_S, Hn1; lia).
    assert (C2 : cnt (Newn i) (S s2) = qe) by (rewrite cnt_S, Hn2; lia).
    split; [lia|]. intros j Hj. rewrite (Hiff j Hj). split.
    - intros Hjr. split; [lia|].
      pose proof (cnt_mono (Newn i) (S s1) (S j) ltac:(lia)). split; [lia|].
      destruct (Nat.lt_ge_cases j s2) as [A|A].
      + pose proof (cnt_mono (Newn i) (S j) s2 ltac:(lia)). lia.
      + rewrite <- (cnt_same cs (Newn i) (S s2) (S j)); [lia|lia|].
        intros u Hu. unfold newn. rewrite Hnb2 by lia. reflexivity.
    - intros [A B]. split.
      + destruct (Nat.lt_ge_cases j s1) as [C|C]; [|assumption].
        pose proof (cnt_mono (Newn i) (S j) s1 ltac:(lia)).
        pose proof (cnt_mono (Newn i) (S lo) (S j) ltac:(lia)) as M. rewrite cnt_S in M.
        replace (Newn i lo) with true in M by (unfold newn; now rewrite Hbl, (Ho lo) by lia). lia.
      + destruct (Nat.lt_ge_cases j h) as [C|C]; [assumption|]. exfalso.
        assert (Hnh : Newn i h = true) by (unfold newn; rewrite Hbh2, (Ho h) by lia; reflexivity).
        pose proof (cnt_mono (Newn i) (S h) (S j) ltac:(lia)) as M. rewrite cnt_S, Hnh in M.
        pose proof (cnt_mono (Newn i) (S s2) h ltac:(lia)). lia.
  Qed.

  Lemma member_ok : forall c p i lo hi,
    area cs i lo hi -> begins cs p lo hi -> length p = i -> positive (p ++ c) ->
    exists r, trie_member t (terminated c) i (cnt (Newn i) lo) (cnt (Newn i) hi) = Ok r /\
      (r = true <-> exists j, j < n /\ is_prefix (terminated (p ++ c)) (Tc j)).
  Proof.
    assert (Step : forall x p i lo hi, area cs i lo hi -> begins cs p lo hi -> length p = i -> positive p ->
      exists nd, get (tr_nodes t) i = Ok nd /\
      exists r, seq_find (q_acc nd) (q_itr nd) (cnt (Newn i) lo) (cnt (Newn i) hi) x = Ok r /\
      match r with
      | None => forall j, j < n -> ~ is_prefix (p ++ [x]) (Tc j)
      | Some pos =>
          exists s h, area cs (S i) s h /\ begins cs (p ++ [x]) s h /\
          (x <> 0%N -> exists q, get (tr_ptrs t) i = Ok q /\
            acc_nat q pos = Ok (cnt (Newn (i + 1)) s) /\ acc_nat q (pos + 1) = Ok (cnt (Newn (i + 1)) h))
      end).
    { intros x p i lo hi Ha Hb Hl Hp. apply (search_step cs Hwf t Hnodes Hnlen Hptrs Hleft Hsizes p i lo hi x Ha Hb Hl
        (area_open cs p i lo hi Ha Hb Hl Hp)). }
    induction c as [|x c IH]; intros p i lo hi Ha Hb Hl Hpos.
    - cbn [terminated app trie_member]. rewrite app_nil_r in *.
      destruct (Step 0%N p i lo hi Ha Hb Hl Hpos) as (nd & E1 & r & E2 & Hr).
      rewrite E1. cbn [bind]. rewrite E2. cbn [bind]. destruct r as [pos|]; eexists; (split; [reflexivity|]).
      + destruct Hr as (s & h & HA & HB & _). split; [intros _|reflexivity]. exists s.
        pose proof HA as ((A & B) & _). fold n in B. split; [lia|]. apply (HB s); [fold n; lia|lia].
      + split; [discriminate|]. intros (j & Hj & Hp). exfalso. now apply (Hr j Hj).
    - assert (Hpp : positive p) by (apply Forall_app in Hpos; tauto).
      assert (Hx : x <> 0%N) by (apply Forall_app in Hpos; destruct Hpos as [_ H]; inversion H; lia).
      change (terminated (x :: c)) with (x :: terminated c). cbn [trie_member].
      destruct (Step x p i lo hi Ha Hb Hl Hpp) as (nd & E1 & r & E2 & Hr).
      rewrite E1. cbn [bind]. rewrite E2. cbn [bind]. destruct r as [pos|].
      + destruct Hr as (s & h & HA & HB & Hq). destruct (Hq Hx) as (q & E3 & E4 & E5).
        destruct (terminated c) as [|z zs] eqn:Et; [destruct c; discriminate|]. rewrite <- Et in *.
        rewrite E3. cbn [bind]. rewrite E4. cbn [bind]. rewrite E5. cbn [bind].
        replace (p ++ x :: c) with ((p ++ [x]) ++ c) in * by (now rewrite <- app_assoc).
        replace (i + 1) with (S i) by lia.
        apply (IH (p ++ [x]) (S i) s h HA HB); [rewrite app_length; cbn; lia|exact Hpos].
      + eexists. split; [reflexivity|]. split; [discriminate|]. intros (j & Hj & Hp). exfalso.
        apply (Hr j Hj). eapply prefix_trans; [|exact Hp]. exists (c ++ [0%N]). unfold terminated.
        now rewrite <- !app_assoc.
  Qed.

  Lemma terminated_inj_prefix c d : positive c -> positive d -> is_prefix (terminated c) (terminated d) -> c = d.
  Proof.
    revert d; induction c as [|x c IH]; intros [|y d] Hc Hd H.
    - reflexivity.
    - cbn in H. apply prefix_cons in H. destruct H as [<- _]. inversion Hd; lia.
    - cbn in H. apply prefix_cons in H. destruct H as [-> _]. inversion Hc; lia.
    - cbn in H. apply prefix_cons in H. destruct H as [-> H]. inversion Hc; inversion Hd; subst.
      f_equal. now apply IH.
  Qed.

  Lemma is_member_ok c : positive c ->
    exists r, trie_is_member t (terminated c) = Ok r /\ (r = true <-> In c cs).
  Proof.
    intros Hc. unfold trie_is_member.
    destruct (terminated c) as [|z zs] eqn:Et; [destruct c; discriminate|]. rewrite <- Et.
    destruct front_size as (f & Ef & Hf & H0). rewrite Ef. cbn [bind]. rewrite Hf.
    destruct area_root as [HA HB].
    destruct (member_ok c [] 0 0 n HA HB eq_refl Hc) as (r & E & Hr). rewrite H0 in E. rewrite E.
    exists r. split; [reflexivity|]. rewrite Hr. cbn [app]. destruct Hwf as (_ & _ & Hw). rewrite Forall_forall in Hw.
    split.
    - intros (j & Hj & Hp). assert (Hin : In (nth j cs []) cs) by now apply nth_In.
      replace c with (nth j cs []); [exact Hin|]. symmetry. apply terminated_inj_prefix; auto.
      destruct (Hw _ Hin) as [H _]. eapply Forall_impl; [|exact H]. cbn. lia.
    - intros Hin. destruct (In_nth cs c [] Hin) as (j & Hj & Ej). exists j. split; [exact Hj|].
      unfold tc. rewrite Ej. apply prefix_refl.
  Qed.
End Search.

