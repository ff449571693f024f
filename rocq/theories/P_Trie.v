(** The completion trie's searches are exact. *)
From Coq Require Import Sorted.
From Verif Require Import Base S_Order P_Order M_Find S_Search P_Find S_Completions M_Trie S_Trie P_TrieBuild.
Local Open Scope nat_scope.

(** Cutting an array at pointers. *)
Fixpoint slices (base : nat) (ptrs : list nat) (from : list N) : list (list N) :=
  match ptrs with
  | [] => []
  | p :: ptrs' => firstn (p - base) from :: slices p ptrs' (skipn (p - base) from)
  end.

Fixpoint nondec (base : nat) (ptrs : list nat) : Prop :=
  match ptrs with [] => True | p :: ptrs' => base <= p /\ nondec p ptrs' end.

Lemma slices_ok : forall ptrs base from, nondec base ptrs -> last ptrs base = base + length from ->
  concat (slices base ptrs from) = from /\ offs base (slices base ptrs from) = ptrs.
Proof.
  induction ptrs as [|p ptrs IH]; intros base from Hn Hl.
  - cbn in *. destruct from; [split; reflexivity|cbn in Hl; lia].
  - destruct Hn as [Hbp Hn]. rewrite last_cons_d in Hl. cbn [slices concat offs].
    assert (Hge : forall l q, nondec q l -> q <= last l q).
    { induction l as [|r l IHl]; intros q Hq; [cbn; lia|]. destruct Hq as [Hq1 Hq2]. rewrite last_cons_d.
      specialize (IHl r Hq2). lia. }
    pose proof (Hge ptrs p Hn) as Hp.
    assert (El : length (firstn (p - base) from) = p - base) by (rewrite firstn_length; lia).
    rewrite El. replace (base + (p - base)) with p by lia.
    destruct (IH p (skipn (p - base) from) Hn) as [A B]; [rewrite skipn_length; lia|].
    rewrite A, B. split; [apply firstn_skipn|reflexivity].
Qed.

Lemma group_pointers_nth gs k : k <= length gs -> nth_error (group_pointers gs) k = Some (group_begin gs k).
Proof.
  intros H. unfold group_pointers. rewrite nth_error_map.
  rewrite (nth_error_nth' _ 0) by (rewrite seq_length; lia). rewrite seq_nth by lia. reflexivity.
Qed.
Lemma group_pointers_length gs : length (group_pointers gs) = length gs + 1.
Proof. unfold group_pointers. now rewrite map_length, seq_length. Qed.

(** Adjacent completions. *)
Lemma lcp_adjacent t t' : lex_lt t t' -> Forall (fun x => (0 < x)%N) t -> Forall (fun x => (0 < x)%N) t' ->
  forall i, let lcp := trie_lcp (length t') (length t) (terminated t') (terminated t) in
  i <= lcp ->
  (lcp <= i -> (nth i (terminated t) 0 < nth i (terminated t') 0)%N) /\
  (i < lcp -> nth i (terminated t) 0%N = nth i (terminated t') 0%N).
Proof.
  intros H. induction H as [y ys|x y xs ys Hxy|x xs ys H IH]; intros Ht Ht' i; cbv zeta.
  - cbn. intros Hi. replace i with 0 by lia. inversion Ht'; subst. split; [intros _; assumption|lia].
  - cbn [length trie_lcp terminated app]. destruct (N.eqb_spec y x); [lia|]. intros Hi. replace i with 0 by lia.
    cbn. split; [intros _; exact Hxy|lia].
  - inversion Ht; inversion Ht'; subst.
    cbn [length trie_lcp terminated app]. rewrite N.eqb_refl. fold (terminated ys). fold (terminated xs).
    destruct i as [|i]; intros Hi.
    + split; [lia|]. intros _. reflexivity.
    + cbn [nth]. destruct (IH H3 H7 i) as [A B]; [lia|]. split; intros; [apply A|apply B]; lia.
Qed.

Fixpoint sums_of (begins ends : list nat) (sum : nat) : list nat :=
  match begins, ends with
  | b :: begins', e :: ends' => (e - b + sum) :: sums_of begins' ends' (e - b + sum)
  | _, _ => []
  end.
Lemma size_sums_ok : forall ends begins sum, length begins = length ends ->
  size_sums begins ends sum = Ok (sums_of begins ends sum).
Proof.
  induction ends as [|e ends IH]; intros [|b begins] sum H; try discriminate; [reflexivity|].
  cbn [size_sums sums_of]. rewrite IH by (cbn in H; lia). reflexivity.
Qed.
Lemma sums_of_length : forall begins ends sum, length begins = length ends ->
  length (sums_of begins ends sum) = length ends.
Proof.
  induction begins as [|b begins IH]; intros [|e ends] sum H; try discriminate; [reflexivity|].
  cbn. now rewrite IH by (cbn in H; lia).
Qed.
Lemma sums_of_nth : forall begins ends sum k, length begins = length ends -> k < length ends ->
  nth k (sums_of begins ends sum) 0 =
  (nth k ends 0 - nth k begins 0) + match k with O => sum | S k' => nth k' (sums_of begins ends sum) 0 end.
Proof.
  induction begins as [|b begins IH]; intros [|e ends] sum k H Hk; try discriminate; [cbn in Hk; lia|].
  cbn [sums_of]. destruct k as [|k]; [reflexivity|]. cbn [nth]. rewrite IH by (cbn in *; lia).
  destruct k; reflexivity.
Qed.
Lemma sums_of_sorted : forall begins ends sum,
  StronglySorted le (sums_of begins ends sum) /\ Forall (fun x => sum <= x) (sums_of begins ends sum).
Proof.
  induction begins as [|b begins IH]; intros ends sum; [split; constructor|].
  destruct ends as [|e ends]; [split; constructor|]. cbn [sums_of].
  destruct (IH ends (e - b + sum)) as [A B]. split; (constructor; [|]).
  - exact A.
  - exact B.
  - lia.
  - eapply Forall_impl; [|exact B]. cbn. lia.
Qed.

Lemma sub_index_nth : forall v k i, i < length v -> nth i (sub_index k v) 0 = nth i v 0 - (k + i).
Proof.
  induction v as [|x v IH]; intros k i H; [cbn in H; lia|]. cbn [sub_index].
  destruct i as [|i]; [cbn; f_equal; lia|]. cbn [nth]. rewrite IH by (cbn in H; lia). f_equal. lia.
Qed.
Lemma sub_index_length : forall v k, length (sub_index k v) = length v.
Proof. induction v as [|x v IH]; intros k; [reflexivity|]. cbn. now rewrite IH. Qed.
Lemma sub_index_sorted : forall v k, StronglySorted lt v -> StronglySorted le (sub_index k v).
Proof.
  assert (G : forall v k m, StronglySorted lt v -> Forall (fun x => m < x) v ->
    Forall (fun x => m - k <= x) (sub_index (S k) v)).
  { induction v as [|x v IH]; intros k m Hs Hf; [constructor|]. inversion Hs; inversion Hf; subst.
    cbn [sub_index]. constructor; [lia|].
    apply Forall_impl with (P := fun y => x - S k <= y); [cbn; lia|]. now apply IH. }
  induction v as [|x v IH]; intros k H; [constructor|]. inversion H; subst.
  cbn [sub_index]. constructor; [now apply IH|]. now apply G.
Qed.

Lemma map_res_tab {A B} (f : A -> res B) (F : nat -> A) (G : nat -> B) m :
  (forall i, i < m -> f (F i) = Ok (G i)) -> map_res f (tab F m) = Ok (tab G m).
Proof.
  unfold tab. intros H. assert (X : forall k lo, lo + k <= m -> map_res f (map F (seq lo k)) = Ok (map G (seq lo k))).
  { induction k as [|k IH]; intros lo Hk; [reflexivity|]. cbn [seq map map_res].
    rewrite H by lia. cbn [bind]. rewrite IH by lia. reflexivity. }
  apply X. lia.
Qed.
Lemma combine_tab {A B} (F : nat -> A) (G : nat -> B) m : combine (tab F m) (tab G m) = tab (fun i => (F i, G i)) m.
Proof.
  unfold tab. generalize 0 as lo. induction m as [|m IH]; intros lo; [reflexivity|]. cbn. now rewrite IH.
Qed.
Lemma tab_tail {A} (F : nat -> A) m : skipn 1 (tab F m) = tab (fun i => F (i + 1)) (m - 1).
Proof.
  unfold tab. destruct m as [|m]; [reflexivity|]. cbn [seq map skipn]. replace (S m - 1) with m by lia.
  rewrite <- seq_shift, map_map. apply map_ext. intros. f_equal. lia.
Qed.

Lemma to_nat_nth l i : N.to_nat (nth i (map N.of_nat l) 0%N) = nth i l 0.
Proof. change 0%N with (N.of_nat 0). rewrite map_nth. apply Nat2N.id. Qed.

Lemma holds_nat_acc l q i : holds_nat l q -> i < length l -> acc_nat q i = Ok (nth i l 0).
Proof.
  intros [_ [H _]] Hi. unfold acc_nat. rewrite H by now rewrite map_length. cbn [bind]. now rewrite to_nat_nth.
Qed.

Section Trie.
  Variable cs : list (list N).
  Hypothesis Hwf : wf_completions cs.
  Let n := length cs.
  Let L := num_levels cs.
  Let tcs := tc cs.
  Notation Tc := (tc cs).
  Notation Lc := (lc cs).
  Notation Brk := (brk cs).
  Notation Opn := (opn cs).
  Notation Newn := (newn cs).
  Notation Clo := (clo cs).
  Notation Key := (key cs).
  Notation Starts := (starts cs).
  Notation Closes := (closes cs).

  Lemma adjacent i j : 0 < j < n -> i <= Lc j ->
    (Brk i j = true -> (Key i (j - 1) < Key i j)%N) /\ (Brk i j = false -> Key i (j - 1) = Key i j).
  Proof.
    intros Hj Hi. destruct Hwf as (Hs & _ & Hf).
    pose proof (lex_sorted_nth cs (j - 1) j [] Hs ltac:(fold n; lia)) as Hlt.
    rewrite Forall_forall in Hf.
    assert (Hpos : forall k, k < n -> Forall (fun x => (0 < x)%N) (nth k cs [])).
    { intros k Hk. destruct (Hf (nth k cs []) (nth_In _ _ Hk)) as [H _]. eapply Forall_impl; [|exact H]. cbn. lia. }
    pose proof (lcp_adjacent _ _ Hlt (Hpos (j - 1) ltac:(lia)) (Hpos j ltac:(lia)) i) as H. cbv zeta in H.
    assert (El : Lc j = trie_lcp (length (nth j cs [])) (length (nth (j - 1) cs []))
      (terminated (nth j cs [])) (terminated (nth (j - 1) cs []))).
    { unfold lc. rewrite !tc_len. now rewrite !Nat.add_sub. }
    rewrite <- El in H. destruct (H Hi) as [A B].
    unfold brk. fold n. destruct (Nat.eqb_spec j 0); [lia|]. destruct (Nat.leb_spec n j); [lia|]. cbn [orb].
    unfold key, tc. split; intros E; [apply A|apply B]; destruct (Nat.leb_spec (Lc j) i); congruence || lia.
  Qed.

  Lemma brk_false i j : Brk i j = false -> 0 < j < n /\ i < Lc j.
  Proof.
    unfold brk. fold n. destruct (Nat.eqb_spec j 0); [discriminate|]. destruct (Nat.leb_spec n j); [discriminate|].
    cbn. destruct (Nat.leb_spec (Lc j) i); [discriminate|]. lia.
  Qed.
  Lemma brk_false_opn i j : Brk i j = false -> Opn i (j - 1) = true /\ Opn i j = true.
  Proof.
    intros H. destruct (brk_false i j H) as [Hj Hi].
    destruct (lc_lt cs Hwf j ltac:(fold n; lia) ltac:(lia)) as [A B]. unfold opn. split; apply Nat.ltb_lt; lia.
  Qed.
  Lemma brk_mono i i' j : i <= i' -> Brk i j = true -> Brk i' j = true.
  Proof.
    intros H H1. destruct (Brk i' j) eqn:E; [reflexivity|]. destruct (brk_false _ _ E) as [A B].
    unfold brk in H1. fold n in H1. destruct (Nat.eqb_spec j 0); [lia|]. destruct (Nat.leb_spec n j); [lia|].
    cbn in H1. destruct (Nat.leb_spec (Lc j) i); [lia|discriminate].
  Qed.
  Lemma brk_0 i : Brk i 0 = true. Proof. reflexivity. Qed.
  Lemma brk_n i : Brk i n = true.
  Proof. unfold brk. fold n. rewrite Nat.leb_refl. now rewrite orb_true_r. Qed.
  Lemma clo_0 i : Clo i 0 = false. Proof. reflexivity. Qed.
  Lemma clo_S i j : Clo i (S j) = Brk i (S j) && Opn i j.
  Proof. unfold clo. now rewrite Nat.sub_succ, Nat.sub_0_r. Qed.

  (** Numbers of nodes begun and finished. *)
  Lemma count_open i j : j < n -> cnt (Clo i) (S j) + (if Opn i j then 1 else 0) = cnt (Newn i) (S j).
  Proof.
    induction j as [|j IH]; intros Hj.
    - rewrite !cnt_S, clo_0. unfold newn. rewrite brk_0. cbn. reflexivity.
    - specialize (IH ltac:(lia)). rewrite (cnt_S (Clo i) (S j)), (cnt_S (Newn i) (S j)), clo_S.
      unfold newn at 2. destruct (Brk i (S j)) eqn:E; cbn [andb].
      + destruct (Opn i j), (Opn i (S j)); lia.
      + destruct (brk_false_opn _ _ E) as [A B]. rewrite Nat.sub_succ, Nat.sub_0_r in A. rewrite A, B in *. lia.
  Qed.

  Lemma cnt_same P a b : a <= b -> (forall j, a <= j < b -> P j = false) -> cnt P a = cnt P b.
  Proof.
    induction 1 as [|b H IH]; intros Hf; [reflexivity|]. rewrite cnt_S, Hf by lia.
    rewrite Nat.add_0_r. apply IH. intros; apply Hf; lia.
  Qed.

  Lemma starts_len i : length (Starts i) = cnt (Newn i) n. Proof. reflexivity. Qed.

  Lemma closes_starts_len i : length (Closes i) = length (Starts i).
  Proof.
    pose proof (n_pos cs Hwf) as Hn. fold n in Hn.
    change (length (Closes i)) with (cnt (Clo i) (S n)). rewrite starts_len, cnt_S.
    pose proof (count_open i (n - 1) ltac:(lia)) as H. replace (S (n - 1)) with n in H by lia.
    unfold n at 2. rewrite (clo_n cs Hwf). fold n. lia.
  Qed.

  (** [h] is the end of the node of level [i] that begins at [s]. *)
  Definition node_end (i s h : nat) : Prop :=
    s < h <= n /\ Brk i h = true /\ forall j, s < j < h -> Brk i j = false.

  Lemma node_end_ex i s : s < n -> exists h, node_end i s h.
  Proof.
    intros Hs. assert (G : forall k h, h + k = n -> s < h -> (forall j, s < j < h -> Brk i j = false) -> exists h', node_end i s h').
    { induction k as [|k IH]; intros h Hk Hsh Hb.
      - exists h. repeat split; auto; try lia. replace h with n by lia. apply brk_n.
      - destruct (Brk i h) eqn:E; [exists h; repeat split; auto; lia|].
        apply (IH (S h)); [lia|lia|]. intros j Hj. destruct (Nat.eq_dec j h) as [->|]; [exact E|]. apply Hb. lia. }
    apply (G (n - S s) (S s)); [lia|lia|]. intros; lia.
  Qed.

  Lemma node_opn i s h j : newn cs i s = true -> node_end i s h -> s <= j < h -> Opn i j = true.
  Proof.
    intros Hn (Hh & _ & Hb) Hj. destruct (Nat.eq_dec j s) as [->|Hne].
    - unfold newn in Hn. now apply andb_true_iff in Hn.
    - apply (brk_false_opn i j). apply Hb. lia.
  Qed.

  Lemma node_close i s h : newn cs i s = true -> node_end i s h ->
    nth_error (Closes i) (cnt (Newn i) s) = Some h.
  Proof.
    intros Hn He. pose proof He as (Hh & Hb & Hnb).
    assert (Hclo : Clo i h = true).
    { destruct h as [|h]; [lia|]. rewrite clo_S, Hb. cbn. apply (node_opn i s (S h)); auto. lia. }
    assert (Ec : cnt (Clo i) h = cnt (Newn i) s).
    { pose proof (count_open i s ltac:(lia)) as H. unfold newn in Hn. apply andb_true_iff in Hn. destruct Hn as [Hn1 Hn2].
      rewrite Hn2, cnt_S in H. rewrite (cnt_S (Newn i) s) in H.
      replace (Newn i s) with true in H by (unfold newn; now rewrite Hn1, Hn2).
      rewrite <- (cnt_S (Clo i) s) in H.
      rewrite <- (cnt_same (Clo i) (S s) h); [lia|lia|].
      intros j Hj. destruct j as [|j]; [lia|]. rewrite clo_S, Hnb by lia. reflexivity. }
    rewrite <- Ec. apply sel_nth; [lia|exact Hclo].
  Qed.

  Lemma node_start i s : s < n -> newn cs i s = true -> nth_error (Starts i) (cnt (Newn i) s) = Some s.
  Proof. intros H1 H2. apply sel_nth; assumption. Qed.

  (** Children pointers. *)
  Definition all_ptrs (i : nat) : list nat := 0 :: map (cnt (Newn (i + 1))) (Closes i).

  Lemma final_ptrs_extra i : exists extra, final_ptrs cs i = all_ptrs i ++ extra /\
    Forall (fun x => x = cnt (Newn (i + 1)) n) extra.
  Proof.
    unfold final_ptrs, all_ptrs, ptrs_of, closes. rewrite sel_S. rewrite (clo_n cs Hwf). fold n. rewrite map_app.
    destruct (Opn i (n - 1)).
    - exists []. cbn. rewrite app_nil_r. split; [reflexivity|constructor].
    - exists [cnt (Newn (i + 1)) n]. cbn. rewrite app_nil_r. split; [reflexivity|repeat constructor].
  Qed.

  Lemma opn_pred i j : Opn (i + 1) j = true -> Opn i j = true.
  Proof. unfold opn. intros H. apply Nat.ltb_lt in H. apply Nat.ltb_lt. lia. Qed.

  Lemma ptr_at_break i : forall j, j <= n -> Brk i j = true ->
    last (0 :: map (cnt (Newn (i + 1))) (sel (Clo i) (S j))) 0 = cnt (Newn (i + 1)) j.
  Proof.
    induction j as [|j IH]; intros Hj Hb.
    - rewrite sel_S, clo_0. reflexivity.
    - rewrite sel_S, clo_S, Hb. cbn [andb]. destruct (Opn i j) eqn:Eo.
      + rewrite map_app, app_comm_cons. cbn [map]. apply last_last.
      + rewrite app_nil_r. rewrite IH; [|lia|].
        * rewrite cnt_S. replace (Newn (i + 1) j) with false; [lia|]. symmetry. unfold newn.
          destruct (Opn (i + 1) j) eqn:E; [|apply andb_false_r]. apply opn_pred in E. congruence.
        * destruct (Brk i j) eqn:E; [reflexivity|]. destruct (brk_false_opn _ _ E). congruence.
  Qed.

  Lemma last_nth_error {A} (l : list A) d x : last (x :: l) d = nth (length l) (x :: l) d.
  Proof.
    revert x; induction l as [|y l IH]; intros x; [reflexivity|].
    change (last (x :: y :: l) d) with (last (y :: l) d). rewrite IH. reflexivity.
  Qed.

  Lemma node_ptrs i s h : s < n -> newn cs i s = true -> node_end i s h ->
    nth_error (final_ptrs cs i) (cnt (Newn i) s) = Some (cnt (Newn (i + 1)) s) /\
    nth_error (final_ptrs cs i) (S (cnt (Newn i) s)) = Some (cnt (Newn (i + 1)) h).
  Proof.
    intros Hs Hn He. pose proof He as (Hh & _ & _).
    destruct (final_ptrs_extra i) as (extra & E & _). rewrite E.
    pose proof (node_close i s h Hn He) as Hc.
    assert (Hk : cnt (Newn i) s < length (Closes i)) by (apply nth_error_Some; congruence).
    split.
    - rewrite nth_error_app1 by (unfold all_ptrs; cbn [length]; rewrite map_length; lia).
      assert (Hcl : cnt (Clo i) (S s) = cnt (Newn i) s).
      { pose proof (count_open i s Hs) as H. unfold newn in Hn. apply andb_true_iff in Hn. destruct Hn as [Hn1 Hn2].
        rewrite Hn2, (cnt_S (Newn i) s) in H. unfold newn at 2 in H. rewrite Hn1, Hn2 in H. cbn [andb] in H. lia. }
      destruct (sel_split (Clo i) (S s) (S n) ltac:(lia)) as [r Er].
      unfold all_ptrs, closes. fold n. rewrite Er, map_app, app_comm_cons.
      assert (Hl : length (map (cnt (Newn (i + 1))) (sel (Clo i) (S s))) = cnt (Newn i) s) by (rewrite map_length; exact Hcl).
      rewrite nth_error_app1 by (cbn [length]; lia).
      rewrite (nth_error_nth' _ 0) by (cbn [length]; lia). f_equal. rewrite <- Hl. rewrite <- last_nth_error.
      apply ptr_at_break; [lia|]. unfold newn in Hn. now apply andb_true_iff in Hn.
    - rewrite nth_error_app1 by (unfold all_ptrs; cbn [length]; rewrite map_length; lia).
      unfold all_ptrs. cbn [nth_error]. rewrite nth_error_map, Hc. reflexivity.
  Qed.

  Lemma nondec_app a l1 l2 : nondec a l1 -> nondec (last l1 a) l2 -> nondec a (l1 ++ l2).
  Proof.
    revert a; induction l1 as [|x l1 IH]; intros a H1 H2; [exact H2|].
    destruct H1 as [H0 H1]. rewrite last_cons_d in H2. cbn. split; [exact H0|]. now apply IH.
  Qed.

  Lemma nondec_cnt P l : forall b, StronglySorted lt l -> Forall (fun x => b <= x) l -> nondec (cnt P b) (map (cnt P) l).
  Proof.
    induction l as [|x l IH]; intros b Hs Hf; [exact I|]. inversion Hs as [|? ? Hs' Hx]; inversion Hf; subst. cbn. split.
    - now apply cnt_mono.
    - apply IH; [assumption|]. eapply Forall_impl; [|exact Hx]. cbn. lia.
  Qed.

  Lemma last_map_le P l b m : Forall (fun x => x <= m) l -> b <= m -> last (map (cnt P) l) (cnt P b) <= cnt P m.
  Proof.
    revert b; induction l as [|x l IH]; intros b Hf Hb; [now apply cnt_mono|].
    inversion Hf; subst. cbn [map]. rewrite last_cons_d. now apply IH.
  Qed.

  Lemma final_ptrs_nondec i : exists ps, final_ptrs cs i = 0 :: ps /\ ps <> [] /\ nondec 0 ps /\
    last ps 0 = cnt (Newn (i + 1)) n.
  Proof.
    unfold final_ptrs, ptrs_of. exists (map (cnt (Newn (i + 1))) (sel (Clo i) n) ++ [cnt (Newn (i + 1)) n]).
    split; [reflexivity|]. split; [destruct (map _ _); discriminate|]. split; [|apply last_last].
    destruct (sel_sorted (Clo i) n) as [Hs Hf].
    apply nondec_app.
    - apply (nondec_cnt (Newn (i + 1)) _ 0); [exact Hs|].
      eapply Forall_impl; [|exact Hf]. cbn. lia.
    - cbn [nondec]. split; [|exact I]. apply (last_map_le (Newn (i + 1)) _ 0); [|lia].
      eapply Forall_impl; [|exact Hf]. cbn. lia.
  Qed.

  (** Sibling groups of level [i]. *)
  Definition nodes_of (i : nat) : list N := map (Key i) (Starts i).
  Definition groups (i : nat) : list (list N) :=
    match i with
    | O => [nodes_of 0]
    | S i' => slices 0 (skipn 1 (final_ptrs cs i')) (nodes_of i)
    end.

  Lemma groups_concat i : concat (groups i) = nodes_of i /\
    match i with O => True | S i' => group_pointers (groups i) = final_ptrs cs i' /\ groups i <> [] end.
  Proof.
    destruct i as [|i]; cbn [groups].
    - cbn. rewrite app_nil_r. auto.
    - destruct (final_ptrs_nondec i) as (ps & E & Hne & Hn & Hl). rewrite E. cbn [skipn].
      destruct (slices_ok ps 0 (nodes_of (S i)) Hn) as [A B].
      { rewrite Hl. unfold nodes_of. rewrite map_length, starts_len. now rewrite Nat.add_1_r. }
      split; [exact A|]. split.
      + pose proof (offs_pointers (slices 0 ps (nodes_of (S i))) 0) as H. rewrite B in H. rewrite H.
        symmetry. rewrite <- (map_id (group_pointers _)) at 2. reflexivity.
      + destruct ps; [congruence|discriminate].
  Qed.

  Lemma nodes_nth i k : k < length (Starts i) -> nth k (nodes_of i) 0%N = Key i (nth k (Starts i) 0).
  Proof.
    intros Hk. unfold nodes_of. rewrite (nth_indep _ 0%N (Key i 0)) by now rewrite map_length. apply map_nth.
  Qed.
  Lemma nodes_len i : length (nodes_of i) = cnt (Newn i) n.
  Proof. unfold nodes_of. now rewrite map_length. Qed.

  (** Where the search stands: completions [lo..hi) are those that begin with [p]. *)
  Definition area (i lo hi : nat) : Prop :=
    lo < hi <= n /\ Brk i lo = true /\ Brk i hi = true /\
    match i with
    | O => lo = 0 /\ hi = n
    | S i' => newn cs i' lo = true /\ node_end i' lo hi
    end.

  Lemma area_lc i lo hi j : area i lo hi -> lo < j < hi -> i <= Lc j.
  Proof.
    intros (_ & _ & _ & H) Hj. destruct i as [|i]; [lia|]. destruct H as [_ (_ & _ & H)].
    destruct (brk_false i j (H j Hj)). lia.
  Qed.

  Lemma area_adj i lo hi j : area i lo hi -> lo < j < hi ->
    (Brk i j = true -> (Key i (j - 1) < Key i j)%N) /\ (Brk i j = false -> Key i (j - 1) = Key i j).
  Proof.
    intros Ha Hj. pose proof Ha as ((H1 & H2) & _). apply adjacent; [lia|]. eapply area_lc; eauto.
  Qed.

  Lemma area_mono i lo hi j1 j2 : area i lo hi -> lo <= j1 -> j1 <= j2 -> j2 < hi -> (Key i j1 <= Key i j2)%N.
  Proof.
    intros Ha H1 H2. induction H2 as [|j2 H2 IH]; intros H3; [lia|].
    specialize (IH ltac:(lia)). destruct (area_adj i lo hi (S j2) Ha ltac:(lia)) as [A B].
    rewrite Nat.sub_succ, Nat.sub_0_r in A, B. destruct (Brk i (S j2)); [specialize (A eq_refl)|specialize (B eq_refl)]; lia.
  Qed.
  Lemma area_strict i lo hi j1 j2 : area i lo hi -> lo <= j1 -> j1 < j2 -> j2 < hi -> Brk i j2 = true -> (Key i j1 < Key i j2)%N.
  Proof.
    intros Ha H1 H2 H3 Hb. pose proof (area_mono i lo hi j1 (j2 - 1) Ha H1 ltac:(lia) ltac:(lia)).
    destruct (area_adj i lo hi j2 Ha ltac:(lia)) as [A _]. specialize (A Hb). lia.
  Qed.
  Lemma area_const i lo hi s j : area i lo hi -> lo <= s -> s <= j -> j < hi ->
    (forall t, s < t <= j -> Brk i t = false) -> Key i s = Key i j.
  Proof.
    intros Ha H1 H2. induction H2 as [|j H2 IH]; intros H3 Hb; [reflexivity|].
    rewrite IH; [|lia|intros; apply Hb; lia].
    destruct (area_adj i lo hi (S j) Ha ltac:(lia)) as [_ B].
    rewrite Nat.sub_succ, Nat.sub_0_r in B. apply B. apply Hb. lia.
  Qed.

  (** Positions [cnt lo .. cnt hi) of level [i] are the nodes begun in [lo..hi). *)
  Lemma pos_range i lo hi k s : nth_error (Starts i) k = Some s ->
    (cnt (Newn i) lo <= k < cnt (Newn i) hi <-> lo <= s < hi).
  Proof.
    intros H. apply sel_nth_inv in H. destruct H as (Hs & Hn & Hc).
    assert (Hc1 : cnt (Newn i) (S s) = k + 1) by (rewrite cnt_S, Hn; lia).
    split; intros [A B]; split.
    - destruct (Nat.lt_ge_cases s lo); [|assumption]. pose proof (cnt_mono (Newn i) (S s) lo ltac:(lia)). lia.
    - destruct (Nat.lt_ge_cases s hi); [assumption|]. pose proof (cnt_mono (Newn i) hi s ltac:(lia)). lia.
    - rewrite <- Hc. now apply cnt_mono.
    - pose proof (cnt_mono (Newn i) (S s) hi ltac:(lia)). lia.
  Qed.

  Lemma starts_get i k : k < cnt (Newn i) n -> exists s, nth_error (Starts i) k = Some s /\ nth k (Starts i) 0 = s.
  Proof.
    intros H. exists (nth k (Starts i) 0). split; [|reflexivity]. apply nth_error_nth'. exact H.
  Qed.

  Lemma starts_lt i k1 k2 s1 s2 : nth_error (Starts i) k1 = Some s1 -> nth_error (Starts i) k2 = Some s2 ->
    k1 < k2 -> s1 < s2.
  Proof.
    intros H1 H2 H. apply sel_nth_inv in H1, H2. destruct H1 as (_ & _ & H1), H2 as (_ & _ & H2).
    destruct (Nat.lt_ge_cases s1 s2); [assumption|]. pose proof (cnt_mono (Newn i) s2 s1 ltac:(lia)). lia.
  Qed.

  Lemma area_increasing i lo hi : area i lo hi ->
    increasing_on (nodes_of i) (cnt (Newn i) lo) (cnt (Newn i) hi).
  Proof.
    intros Ha k1 k2 Hk1 Hk Hk2. pose proof Ha as ((_ & Hhi) & _).
    pose proof (cnt_mono (Newn i) hi n ltac:(lia)) as Hm.
    destruct (starts_get i k1 ltac:(lia)) as (s1 & E1 & E1'). destruct (starts_get i k2 ltac:(lia)) as (s2 & E2 & E2').
    rewrite !nodes_nth by (rewrite starts_len; lia). rewrite E1', E2'.
    pose proof (proj1 (pos_range i lo hi k1 s1 E1) ltac:(lia)). pose proof (proj1 (pos_range i lo hi k2 s2 E2) ltac:(lia)).
    pose proof (starts_lt i k1 k2 s1 s2 E1 E2 Hk). apply area_strict with lo hi; auto; try lia.
    apply sel_nth_inv in E2. destruct E2 as (_ & E2 & _). unfold newn in E2. now apply andb_true_iff in E2.
  Qed.

  (** The group searched in that area. *)
  Lemma area_group i lo hi : area i lo hi -> exists k,
    group_begin (groups i) k = cnt (Newn i) lo /\ group_begin (groups i) (S k) = cnt (Newn i) hi.
  Proof.
    intros Ha. pose proof Ha as ((Hlo & Hhi) & _ & _ & Hm). destruct i as [|i].
    - destruct Hm as [-> ->]. exists 0. split; [reflexivity|].
      unfold group_begin. cbn [groups firstn concat]. rewrite app_nil_r. apply nodes_len.
    - destruct Hm as [Hn He]. exists (cnt (Newn i) lo).
      destruct (groups_concat (S i)) as [_ [Hp _]].
      destruct (node_ptrs i lo hi ltac:(lia) Hn He) as [A B].
      rewrite <- Hp in A, B. rewrite Nat.add_1_r in A, B.
      assert (Hlen : S (cnt (Newn i) lo) < length (group_pointers (groups (S i)))) by (apply nth_error_Some; congruence).
      rewrite group_pointers_length in Hlen.
      rewrite group_pointers_nth in A, B by lia. injection A as A. injection B as B. auto.
  Qed.

  Definition vals (i : nat) : list N := concat (gsums 0 (groups i)).

  (** A node opened at [lo] in an area not yet past the terminator. *)
  Lemma area_first i lo hi : area i lo hi -> Opn i lo = true -> cnt (Newn i) lo < cnt (Newn i) hi.
  Proof.
    intros Ha Ho. pose proof Ha as ((Hlo & Hhi) & Hb & _).
    pose proof (cnt_mono (Newn i) (S lo) hi ltac:(lia)) as H. rewrite cnt_S in H.
    replace (Newn i lo) with true in H by (unfold newn; now rewrite Hb, Ho). lia.
  Qed.

  Lemma level_search i lo hi nd : area i lo hi -> Opn i lo = true -> holds (vals i) nd ->
    (forall x, exists r, seq_find (q_acc nd) (q_itr nd) (cnt (Newn i) lo) (cnt (Newn i) hi) x = Ok r /\
       is_position (nodes_of i) (cnt (Newn i) lo) (cnt (Newn i) hi) x r) /\
    (forall a b, (a <= b)%N -> exists q,
       ef_find_range (q_acc nd) (q_itr nd) (cnt (Newn i) lo) (cnt (Newn i) hi) a b = Ok q /\
       is_value_range (nodes_of i) (cnt (Newn i) lo) (cnt (Newn i) hi) a b q).
  Proof.
    intros Ha Ho [_ Hr]. destruct (area_group i lo hi Ha) as (k & Eb & Ee).
    pose proof (area_increasing i lo hi Ha) as Hinc. pose proof (area_first i lo hi Ha Ho) as Hpos.
    destruct (groups_concat i) as [Ec _]. rewrite <- Ec in *. rewrite <- Eb, <- Ee in *.
    split.
    - intros x. apply (group_find_ok (groups i) k Hinc ltac:(lia) _ _ x Hr).
    - intros a b Hab. apply (group_ef_find_range_ok (groups i) k Hinc ltac:(lia) _ _ a b Hr Hab).
  Qed.

  (** The child found. *)
  Lemma child_area i lo hi k s : area i lo hi -> nth_error (Starts i) k = Some s ->
    cnt (Newn i) lo <= k < cnt (Newn i) hi ->
    exists h, area (S i) s h /\ newn cs i s = true /\ node_end i s h /\ lo <= s /\ h <= hi /\
      forall j, lo <= j < hi -> (Key i j = Key i s <-> s <= j < h).
  Proof.
    intros Ha Hs Hk. pose proof (proj1 (pos_range i lo hi k s Hs) Hk) as Hsr.
    pose proof Ha as ((Hlo & Hhi) & Hblo & Hbhi & Hm).
    pose proof (sel_nth_inv _ _ _ _ Hs) as (Hsn & Hnew & Hc).
    destruct (node_end_ex i s Hsn) as [h He]. pose proof He as (Hh & Hbh & Hnb). exists h.
    assert (Hbs : Brk i s = true) by (unfold newn in Hnew; now apply andb_true_iff in Hnew).
    assert (Hhh : h <= hi).
    { destruct (Nat.le_gt_cases h hi); [assumption|]. specialize (Hnb hi ltac:(lia)). congruence. }
    split; [|split; [exact Hnew|split; [exact He|split; [lia|split; [exact Hhh|]]]]].
    - split; [lia|]. split; [|split].
      + now apply brk_mono with i; [lia|].
      + now apply brk_mono with i; [lia|].
      + split; assumption.
    - intros j Hj. split.
      + intros E. split.
        * destruct (Nat.lt_ge_cases j s); [|assumption].
          pose proof (area_strict i lo hi j s Ha ltac:(lia) ltac:(lia) ltac:(lia) Hbs). lia.
        * destruct (Nat.lt_ge_cases j h); [assumption|].
          pose proof (area_strict i lo hi s h Ha ltac:(lia) ltac:(lia) ltac:(lia) Hbh).
          pose proof (area_mono i lo hi h j Ha ltac:(lia) ltac:(lia) ltac:(lia)). lia.
      + intros H. symmetry. apply (area_const i lo hi s j Ha); try lia. intros; apply Hnb; lia.
  Qed.

  (** Completions beginning with a sequence. *)
  Definition begins (p : list N) (lo hi : nat) : Prop :=
    forall j, j < n -> (is_prefix p (Tc j) <-> lo <= j < hi).

  Definition positive (p : list N) : Prop := Forall (fun x => (0 < x)%N) p.

  Lemma prefix_terminated p c : positive p -> is_prefix p (terminated c) -> is_prefix p c /\ length p < length (terminated c).
  Proof.
    revert c; induction p as [|x p IH]; intros c Hp H.
    - split; [apply prefix_nil|]. unfold terminated. rewrite app_length. cbn. lia.
    - inversion Hp; subst. destruct c as [|y c].
      + cbn in H. apply prefix_cons in H. destruct H as [-> _]. lia.
      + cbn in H. apply prefix_cons in H. destruct H as [-> H].
        destruct (IH c H3 H) as [A B]. split; [apply prefix_cons; auto|]. cbn. unfold terminated in B. lia.
  Qed.

  Lemma prefix_snoc p x s : is_prefix (p ++ [x]) s <-> is_prefix p s /\ length p < length s /\ nth (length p) s 0%N = x.
  Proof.
    revert s; induction p as [|y p IH]; intros s; cbn [app length].
    - destruct s as [|z s].
      + split; [intros [t H]; discriminate|]. cbn. intros (_ & H & _). lia.
      + rewrite prefix_cons. cbn. split.
        * intros [-> _]. split; [apply prefix_nil|]. split; [lia|reflexivity].
        * intros (_ & _ & ->). split; [reflexivity|apply prefix_nil].
    - destruct s as [|z s].
      + split; [intros [t H]; discriminate|]. intros (_ & H & _). cbn in H. lia.
      + rewrite !prefix_cons, IH. cbn. split; [intros (A & B & C & D); repeat split; auto; lia|].
        intros ((A & B) & C & D). repeat split; auto; lia.
  Qed.

  Lemma area_open p i lo hi : area i lo hi -> begins p lo hi -> length p = i -> positive p ->
    forall j, lo <= j < hi -> Opn i j = true.
  Proof.
    intros Ha Hb Hl Hp j Hj. pose proof Ha as ((_ & Hhi) & _).
    pose proof (proj2 (Hb j ltac:(lia)) Hj) as H. destruct (prefix_terminated p _ Hp H) as [_ H2].
    unfold opn. apply Nat.ltb_lt. fold (Tc j) in H2. lia.
  Qed.

  Lemma child_begins p i lo hi s h : area i lo hi -> begins p lo hi -> length p = i ->
    (forall j, lo <= j < hi -> Opn i j = true) ->
    lo <= s -> s < h -> h <= hi -> (forall j, lo <= j < hi -> (Key i j = Key i s <-> s <= j < h)) ->
    begins (p ++ [Key i s]) s h.
  Proof.
    intros Ha Hb Hl Ho H1 H2 H3 H4 j Hj. pose proof Ha as ((_ & Hhi) & _).
    rewrite prefix_snoc, (Hb j Hj), Hl. fold (Key i j). split.
    - intros (A & B & C). now apply H4.
    - intros A. assert (lo <= j < hi) by lia. split; [assumption|]. split.
      + specialize (Ho j H). unfold opn in Ho. now apply Nat.ltb_lt in Ho.
      + now apply H4.
  Qed.

  (** Containers of the levels. *)
  Variable t : trie.
  Hypothesis Hnodes : forall i, i < L -> exists nd, nth_error (tr_nodes t) i = Some nd /\ holds (vals i) nd.
  Hypothesis Hnlen : length (tr_nodes t) = L.
  Hypothesis Hptrs : forall i, i < L - 1 -> exists q, nth_error (tr_ptrs t) i = Some q /\ holds_nat (final_ptrs cs i) q.
  Hypothesis Hleft : forall i, i < L -> exists q, nth_error (tr_left t) i = Some q /\ holds_nat (sub_index 0 (Starts i)) q.
  Hypothesis Hsizes : forall i, i < L -> exists q, nth_error (tr_sizes t) i = Some q /\
    holds_nat (sums_of (Starts i) (map pred (Closes i)) 0) q.

  Lemma opn_level i j : j < n -> Opn i j = true -> i < L.
  Proof.
    intros Hj H. unfold opn in H. apply Nat.ltb_lt in H. pose proof (tc_pos cs Hwf j Hj). unfold L. lia.
  Qed.

  (** One step of the descent: search token [x] among the children of [p]. *)
  Lemma search_step p i lo hi x : area i lo hi -> begins p lo hi -> length p = i ->
    (forall j, lo <= j < hi -> Opn i j = true) ->
    exists nd, get (tr_nodes t) i = Ok nd /\
    exists r, seq_find (q_acc nd) (q_itr nd) (cnt (Newn i) lo) (cnt (Newn i) hi) x = Ok r /\
    match r with
    | None => forall j, j < n -> ~ is_prefix (p ++ [x]) (Tc j)
    | Some pos =>
        exists s h, area (S i) s h /\ begins (p ++ [x]) s h /\
        (x <> 0%N -> exists q, get (tr_ptrs t) i = Ok q /\
          acc_nat q pos = Ok (cnt (Newn (i + 1)) s) /\ acc_nat q (pos + 1) = Ok (cnt (Newn (i + 1)) h))
    end.
  Proof.
    intros Ha Hb Hl Ho. pose proof Ha as ((Hlo & Hhi) & Hbl & Hbh & _).
    pose proof (Ho lo ltac:(lia)) as Holo.
    destruct (Hnodes i (opn_level i lo ltac:(lia) Holo)) as (nd & End & Hnd).
    exists nd. split; [now apply get_ok|].
    destruct (level_search i lo hi nd Ha Holo Hnd) as [Hf _]. destruct (Hf x) as (r & Er & Hr).
    exists r. split; [exact Er|]. destruct r as [pos|]; cbn in Hr.
    - destruct Hr as [Hpos Hx]. pose proof (cnt_mono (Newn i) hi n ltac:(lia)).
      destruct (starts_get i pos ltac:(lia)) as (s & Es & Es').
      rewrite nodes_nth, Es' in Hx by (rewrite starts_len; lia).
      destruct (child_area i lo hi pos s Ha Es Hpos) as (h & HA & Hnew & He & H1 & H2 & H3).
      pose proof He as (Hh & _). exists s, h. split; [exact HA|].
      pose proof (child_begins p i lo hi s h Ha Hb Hl Ho H1 ltac:(lia) H2 H3) as Hcb. rewrite Hx in Hcb.
      split; [exact Hcb|].
      intros Hx0. assert (HiL : i < L - 1).
      { assert (Hks : nth i (Tc s) 0%N <> 0%N) by (fold (Key i s); congruence).
        destruct (Nat.lt_ge_cases i (length (Tc s) - 1)) as [A|A].
        - pose proof (tc_pos cs Hwf s ltac:(fold n; lia)). unfold L. lia.
        - exfalso. apply Hks. unfold tc, terminated in *. rewrite app_length in A. cbn in A.
          rewrite app_nth2 by lia. destruct (i - length (nth s cs [])) as [|[|?]]; reflexivity. }
      destruct (Hptrs i HiL) as (q & Eq & Hq). exists q. split; [now apply get_ok|].
      destruct (node_ptrs i s h ltac:(lia) Hnew He) as [P1 P2].
      pose proof (sel_nth_inv _ _ _ _ Es) as (_ & _ & Hc). rewrite Hc in P1, P2.
      split; rewrite (holds_nat_acc _ _ _ Hq).
      + f_equal. now apply nth_error_nth.
      + apply nth_error_Some. congruence.
      + f_equal. apply nth_error_nth. now rewrite Nat.add_1_r.
      + rewrite Nat.add_1_r. apply nth_error_Some. congruence.
    - intros j Hj Hp. apply prefix_snoc in Hp. destruct Hp as (Hp & _ & Hx). rewrite Hl in Hx.
      apply (Hb j Hj) in Hp. fold (Key i j) in Hx.
      (* the node holding j *)
      pose proof (cnt_mono (Newn i) (S j) hi ltac:(lia)) as M1.
      pose proof (cnt_mono (Newn i) (S lo) (S j) ltac:(lia)) as M2. rewrite cnt_S in M2.
      replace (Newn i lo) with true in M2 by (unfold newn; now rewrite Hbl, Holo).
      pose proof (cnt_mono (Newn i) hi n ltac:(lia)) as M3.
      set (k := cnt (Newn i) (S j) - 1) in *.
      destruct (starts_get i k ltac:(lia)) as (s & Es & Es').
      apply (Hr k); [lia|]. rewrite nodes_nth, Es' by (rewrite starts_len; lia).
      pose proof (proj1 (pos_range i lo hi k s Es) ltac:(lia)) as Hsr.
      pose proof (sel_nth_inv _ _ _ _ Es) as (_ & Hsnew & Hsc).
      assert (Hsj : s <= j).
      { destruct (Nat.le_gt_cases s j); [assumption|]. pose proof (cnt_mono (Newn i) (S j) s ltac:(lia)). lia. }
      rewrite <- Hx. apply (area_const i lo hi s j Ha); try lia.
      intros u Hu. destruct (Brk i u) eqn:E; [|reflexivity]. exfalso.
      assert (Newn i u = true) by (unfold newn; rewrite E, (Ho u) by lia; reflexivity).
      pose proof (cnt_mono (Newn i) (S u) (S j) ltac:(lia)) as M4. rewrite cnt_S, H in M4.
      pose proof (cnt_mono (Newn i) (S s) u ltac:(lia)) as M5. rewrite cnt_S, Hsnew in M5. lia.
  Qed.
End Trie.
