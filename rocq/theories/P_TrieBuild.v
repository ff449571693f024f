(** The trie builder's arrays, described level by level. *)
From Coq Require Import Sorted.
From Verif Require Import Base S_Order P_Order M_Find S_Search P_Find S_Completions M_Trie S_Trie.
Local Open Scope nat_scope.

(** Tables. *)
Definition tab {A} (F : nat -> A) (n : nat) : list A := map F (seq 0 n).
Lemma tab_length {A} (F : nat -> A) n : length (tab F n) = n.
Proof. unfold tab. now rewrite map_length, seq_length. Qed.
Lemma tab_nth {A} (F : nat -> A) n i : i < n -> nth_error (tab F n) i = Some (F i).
Proof.
  intros H. unfold tab. rewrite nth_error_map.
  rewrite (nth_error_nth' _ 0) by now rewrite seq_length. now rewrite seq_nth.
Qed.
Lemma tab_ext {A} (F G : nat -> A) n : (forall i, i < n -> F i = G i) -> tab F n = tab G n.
Proof. intros H. apply map_ext_in. intros i Hi. apply H. apply in_seq in Hi. lia. Qed.
Lemma tab_get {A} (F : nat -> A) n i : i < n -> get (tab F n) i = Ok (F i).
Proof. intros H. apply get_ok. now apply tab_nth. Qed.
Lemma tab_upd {A} (F : nat -> A) n i v : upd (tab F n) i v = tab (fun k => if k =? i then v else F k) n.
Proof.
  apply nth_error_ext. intros k. rewrite upd_nth_error, tab_length.
  destruct (Nat.lt_ge_cases k n) as [L|L].
  - rewrite !tab_nth by assumption. destruct (Nat.eqb_spec i k) as [->|H].
    + rewrite Nat.eqb_refl. destruct (Nat.ltb_spec k n); [reflexivity|lia].
    + cbn [andb]. destruct (Nat.eqb_spec k i); [congruence|reflexivity].
  - rewrite (proj2 (nth_error_None (tab F n) k)) by now rewrite tab_length.
    rewrite (proj2 (nth_error_None _ k)) by now rewrite tab_length.
    destruct (Nat.eqb_spec i k) as [->|H]; [|reflexivity]. destruct (Nat.ltb_spec k n); [lia|reflexivity].
Qed.
Lemma tab_set {A} (F : nat -> A) n i v : i < n ->
  set (tab F n) i v = Ok (tab (fun k => if k =? i then v else F k) n).
Proof. intros H. rewrite set_ok by now rewrite tab_length. now rewrite tab_upd. Qed.
Lemma tab_push {A} (F : nat -> list A) n i x : i < n ->
  push_at (tab F n) i x = Ok (tab (fun k => if k =? i then F k ++ [x] else F k) n).
Proof.
  intros H. unfold push_at. rewrite (tab_get F n i H). cbn [bind]. rewrite tab_set by assumption.
  f_equal. apply tab_ext. intros k _. destruct (Nat.eqb_spec k i) as [->|]; reflexivity.
Qed.
Lemma tab_repeat {A} (x : A) n : repeat x n = tab (fun _ => x) n.
Proof.
  apply nth_error_ext. intros i. destruct (Nat.lt_ge_cases i n) as [L|L].
  - rewrite tab_nth by assumption. rewrite (nth_error_nth' _ x) by now rewrite repeat_length.
    now rewrite nth_repeat.
  - rewrite !(proj2 (nth_error_None _ i)); [reflexivity|now rewrite tab_length|now rewrite repeat_length].
Qed.

Lemma for_push {A} (f : nat -> A) N : forall n lo F, lo + n <= N ->
  for_range n lo (fun i v => push_at v i (f i)) (tab F N) =
  Ok (tab (fun i => F i ++ if (lo <=? i) && (i <? lo + n) then [f i] else []) N).
Proof.
  induction n as [|n IH]; intros lo F H; cbn [for_range].
  - f_equal. apply tab_ext. intros i _. replace ((lo <=? i) && (i <? lo + 0)) with false by lia.
    now rewrite app_nil_r.
  - rewrite tab_push by lia. cbn [bind]. rewrite IH by lia. f_equal. apply tab_ext. intros i _.
    destruct (Nat.eqb_spec i lo) as [->|Hi].
    + replace ((lo + 1 <=? lo) && (lo <? lo + 1 + n)) with false by lia.
      replace ((lo <=? lo) && (lo <? lo + S n)) with true by lia. now rewrite app_nil_r.
    + replace ((lo + 1 <=? i) && (i <? lo + 1 + n)) with ((lo <=? i) && (i <? lo + S n)) by lia. reflexivity.
Qed.

Lemma for_close N : forall n lo (P : nat -> list nat) O, lo + n <= N -> (forall i, P i <> []) ->
  for_range n lo tb_close (tab P N, tab O N) =
  Ok (tab (fun i => P i ++ if (lo <=? i) && (i <? lo + n) then [last (P i) 0 + O i] else []) N,
      tab (fun i => if (lo <=? i) && (i <? lo + n) then 0 else O i) N).
Proof.
  induction n as [|n IH]; intros lo P O H HP; cbn [for_range].
  - f_equal. f_equal; apply tab_ext; intros i _; replace ((lo <=? i) && (i <? lo + 0)) with false by lia;
      [now rewrite app_nil_r|reflexivity].
  - unfold tb_close at 1. rewrite (tab_get P N lo) by lia. cbn [bind].
    assert (Eb : back (P lo) = Ok (last (P lo) 0)).
    { specialize (HP lo). unfold back. destruct (P lo) as [|x t] eqn:E; [congruence|]. rewrite <- E.
      rewrite (get_nth _ _ 0) by (rewrite E; cbn; lia). f_equal. clear -E. rewrite E. clear E.
      revert x; induction t as [|y t IH]; intros x; [reflexivity|].
      change (last (x :: y :: t) 0) with (last (y :: t) 0). rewrite <- IH. cbn. now rewrite Nat.sub_0_r. }
    rewrite Eb. cbn [bind]. rewrite (tab_get O N lo) by lia. cbn [bind].
    rewrite tab_push by lia. cbn [bind]. rewrite tab_set by lia. cbn [bind].
    rewrite IH; [|lia|].
    2:{ intros i. destruct (i =? lo); [|apply HP]. destruct (P i); discriminate. }
    f_equal. f_equal; apply tab_ext; intros i _; destruct (Nat.eqb_spec i lo) as [->|Hi].
    + replace ((lo + 1 <=? lo) && (lo <? lo + 1 + n)) with false by lia.
      replace ((lo <=? lo) && (lo <? lo + S n)) with true by lia. now rewrite app_nil_r.
    + replace ((lo + 1 <=? i) && (i <? lo + 1 + n)) with ((lo <=? i) && (i <? lo + S n)) by lia. reflexivity.
    + replace ((lo + 1 <=? lo) && (lo <? lo + 1 + n)) with false by lia.
      replace ((lo <=? lo) && (lo <? lo + S n)) with true by lia. reflexivity.
    + replace ((lo + 1 <=? i) && (i <? lo + 1 + n)) with ((lo <=? i) && (i <? lo + S n)) by lia. reflexivity.
Qed.

Lemma for_incr N one : forall n lo O, one <= lo -> lo - one + n <= N ->
  for_range n lo (fun i offs => do x <- get offs (i - one); set offs (i - one) (x + 1)) (tab O N) =
  Ok (tab (fun i => O i + if (lo <=? i + one) && (i + one <? lo + n) then 1 else 0) N).
Proof.
  induction n as [|n IH]; intros lo O H1 H; cbn [for_range].
  - f_equal. apply tab_ext. intros i _. replace ((lo <=? i + one) && (i + one <? lo + 0)) with false by lia. lia.
  - rewrite tab_get by lia. cbn [bind]. rewrite tab_set by lia. cbn [bind]. rewrite IH by lia.
    f_equal. apply tab_ext. intros i _. destruct (Nat.eqb_spec i (lo - one)) as [->|Hi].
    + replace ((lo + 1 <=? lo - one + one) && (lo - one + one <? lo + 1 + n)) with false by lia.
      replace ((lo <=? lo - one + one) && (lo - one + one <? lo + S n)) with true by lia. lia.
    + replace ((lo + 1 <=? i + one) && (i + one <? lo + 1 + n)) with
        ((lo <=? i + one) && (i + one <? lo + S n)) by lia. reflexivity.
Qed.

Lemma for_nodes {A B} N (g : nat -> res A) (f : nat -> A) (b : B) : forall n lo F G, lo + n <= N ->
  (forall i, lo <= i < lo + n -> g i = Ok (f i)) ->
  for_range n lo (fun i s => do c <- g i; do nd <- push_at (fst s) i c;
                             do le <- push_at (snd s) i b; Ok (nd, le)) (tab F N, tab G N) =
  Ok (tab (fun i => F i ++ if (lo <=? i) && (i <? lo + n) then [f i] else []) N,
      tab (fun i => G i ++ if (lo <=? i) && (i <? lo + n) then [b] else []) N).
Proof.
  induction n as [|n IH]; intros lo F G H Hg; cbn [for_range].
  - f_equal. f_equal; apply tab_ext; intros i _; replace ((lo <=? i) && (i <? lo + 0)) with false by lia;
      now rewrite app_nil_r.
  - rewrite Hg by lia. cbn [bind fst snd]. rewrite !tab_push by lia. cbn [bind]. rewrite IH; [|lia|intros; apply Hg; lia].
    f_equal. f_equal; apply tab_ext; intros i _; destruct (Nat.eqb_spec i lo) as [->|Hi].
    + replace ((lo + 1 <=? lo) && (lo <? lo + 1 + n)) with false by lia.
      replace ((lo <=? lo) && (lo <? lo + S n)) with true by lia. now rewrite app_nil_r.
    + replace ((lo + 1 <=? i) && (i <? lo + 1 + n)) with ((lo <=? i) && (i <? lo + S n)) by lia. reflexivity.
    + replace ((lo + 1 <=? lo) && (lo <? lo + 1 + n)) with false by lia.
      replace ((lo <=? lo) && (lo <? lo + S n)) with true by lia. now rewrite app_nil_r.
    + replace ((lo + 1 <=? i) && (i <? lo + 1 + n)) with ((lo <=? i) && (i <? lo + S n)) by lia. reflexivity.
Qed.

(** Lists of the positions below [m] with property [P]. *)
Definition sel (P : nat -> bool) (m : nat) : list nat := filter P (seq 0 m).
Definition cnt (P : nat -> bool) (m : nat) : nat := length (sel P m).

Lemma sel_S P m : sel P (S m) = sel P m ++ if P m then [m] else [].
Proof. unfold sel. rewrite seq_S, filter_app. cbn. destruct (P m); reflexivity. Qed.
Lemma cnt_S P m : cnt P (S m) = cnt P m + if P m then 1 else 0.
Proof. unfold cnt. rewrite sel_S, app_length. destruct (P m); reflexivity. Qed.
Lemma cnt_mono P m m' : m <= m' -> cnt P m <= cnt P m'.
Proof. induction 1 as [|m' H IH]; [lia|]. rewrite cnt_S. lia. Qed.
Lemma cnt_le P m : cnt P m <= m.
Proof. induction m as [|m IH]; [reflexivity|]. rewrite cnt_S. destruct (P m); lia. Qed.
Lemma sel_split P m m' : m <= m' -> exists r, sel P m' = sel P m ++ r.
Proof.
  induction 1 as [|m' H [r IH]]; [exists []; now rewrite app_nil_r|].
  rewrite sel_S, IH, <- app_assoc. eauto.
Qed.
(** The [cnt P j]-th selected position is [j]. *)
Lemma sel_nth P m j : j < m -> P j = true -> nth_error (sel P m) (cnt P j) = Some j.
Proof.
  intros H HP. destruct (sel_split P (S j) m H) as [r E]. rewrite E, sel_S, HP, <- app_assoc.
  unfold cnt. now rewrite nth_error_app2, Nat.sub_diag by lia.
Qed.
Lemma sel_nth_inv P m k j : nth_error (sel P m) k = Some j -> j < m /\ P j = true /\ cnt P j = k.
Proof.
  induction m as [|m IH]; intros H; [destruct k; discriminate|]. rewrite sel_S in H.
  destruct (Nat.lt_ge_cases k (length (sel P m))) as [L|L].
  - rewrite nth_error_app1 in H by assumption. destruct (IH H) as (A & B & C). repeat split; auto.
  - rewrite nth_error_app2 in H by assumption.
    destruct (P m) eqn:E; [|destruct (k - _); discriminate].
    destruct (k - length (sel P m)) as [|d] eqn:Ed; [|destruct d; discriminate].
    injection H as <-. repeat split; auto. unfold cnt. lia.
Qed.
Lemma sel_sorted P m : StronglySorted lt (sel P m) /\ Forall (fun x => x < m) (sel P m).
Proof.
  induction m as [|m [IH1 IH2]]; [split; constructor|]. rewrite sel_S. split.
  - destruct (P m); [|now rewrite app_nil_r]. clear IH2. revert IH1. clear.
    assert (H : Forall (fun x => x < m) (sel P m)).
    { apply Forall_forall. intros x Hx. apply filter_In in Hx. destruct Hx as [Hx _]. apply in_seq in Hx. lia. }
    induction 1 as [|x l Hs IH Hx]; [repeat constructor|]. inversion H; subst. cbn. constructor; [now apply IH|].
    apply Forall_app. split; [exact Hx|]. now constructor.
  - apply Forall_app. split; [eapply Forall_impl; [|exact IH2]; cbn; lia|]. destruct (P m); repeat constructor.
Qed.

Section Build.
  Variable cs : list (list N).
  Hypothesis Hwf : wf_completions cs.
  Let n := length cs.
  Let L := num_levels cs.

  (** The [j]-th terminated completion. *)
  Definition tc (j : nat) : list N := terminated (nth j cs []).
  Definition lc (j : nat) : nat := trie_lcp (length (tc j) - 1) (length (tc (j - 1)) - 1) (tc j) (tc (j - 1)).
  (** Completion [j] differs from completion [j-1] within the first [i+1] tokens. *)
  Definition brk (i j : nat) : bool := (j =? 0) || (length cs <=? j) || (lc j <=? i).
  Definition opn (i j : nat) : bool := i <? length (tc j).
  Definition newn (i j : nat) : bool := brk i j && opn i j.
  Definition clo (i j : nat) : bool := (1 <=? j) && brk i j && opn i (j - 1).
  Definition key (i j : nat) : N := nth i (tc j) 0%N.

  Lemma tc_len j : length (tc j) = length (nth j cs []) + 1.
  Proof. unfold tc, terminated. rewrite app_length. reflexivity. Qed.
  Lemma tc_pos j : j < n -> 2 <= length (tc j) <= L.
  Proof.
    intros Hj. destruct Hwf as (_ & _ & Hf). rewrite Forall_forall in Hf.
    assert (Hin : In (nth j cs []) cs) by now apply nth_In. rewrite tc_len.
    destruct (Hf _ Hin) as [_ Hl]. split; [lia|]. unfold L, num_levels.
    clear -Hin. revert Hin. generalize (nth j cs []) as c0. intros c0 Hin. induction cs as [|c l IH]; [destruct Hin|]. cbn [map fold_right]. destruct Hin as [->|Hin]; [lia|].
    specialize (IH Hin). lia.
  Qed.
  Lemma n_pos : 0 < n.
  Proof. destruct Hwf as (_ & H & _). unfold n. destruct cs; [congruence|cbn; lia]. Qed.
  Lemma L_pos : 2 <= L.
  Proof. pose proof (tc_pos 0 n_pos). lia. Qed.

  Lemma lcp_le a b x y : trie_lcp a b x y <= a /\ trie_lcp a b x y <= b.
  Proof.
    revert b x y; induction a as [|a IH]; intros b x y; [cbn; lia|].
    destruct b as [|b]; [cbn; lia|]. destruct x as [|u x]; [cbn; lia|]. destruct y as [|v y]; [cbn; lia|].
    cbn. destruct (u =? v)%N; [|lia]. specialize (IH b x y). lia.
  Qed.

  Lemma lc_lt j : j < n -> 0 < j -> lc j < length (tc j) /\ lc j < length (tc (j - 1)).
  Proof.
    intros Hj H0. pose proof (tc_pos j Hj). pose proof (tc_pos (j - 1) ltac:(lia)).
    pose proof (lcp_le (length (tc j) - 1) (length (tc (j - 1)) - 1) (tc j) (tc (j - 1))). unfold lc. lia.
  Qed.

  Definition ptrs_of (i m : nat) : list nat := 0 :: map (cnt (newn (i + 1))) (sel (clo i) m).

  Lemma clo_n i : clo i n = opn i (n - 1).
  Proof.
    unfold clo, brk. pose proof n_pos. replace (1 <=? n) with true by lia. fold n. rewrite Nat.leb_refl.
    rewrite orb_true_r. reflexivity.
  Qed.

  Variable docs : list nat.
  Hypothesis Hdocs : length docs = length cs.

  Definition tb_inv (m : nat) (st : tb) : Prop :=
    tb_nodes st = tab (fun i => map (key i) (sel (newn i) m)) L /\
    tb_left st = tab (fun i => sel (newn i) m) L /\
    tb_sizes st = tab (fun i => map pred (sel (clo i) m)) L /\
    tb_ptrs st = tab (fun i => ptrs_of i m) (L - 1) /\
    (exists O, tb_offs st = tab O (L - 1) /\
       forall i, i < L - 1 -> O i + last (ptrs_of i m) 0 = cnt (newn (i + 1)) m /\
                              (0 < m -> opn i (m - 1) = false -> O i = 0)) /\
    tb_docs st = firstn m docs /\
    tb_prev st = (if m =? 0 then [0%N] else tc (m - 1)) /\
    tb_begin st = m /\ tb_end st = m.

  Lemma firstn_snoc {A} (l : list A) m x : nth_error l m = Some x -> firstn (S m) l = firstn m l ++ [x].
  Proof.
    revert m; induction l as [|y l IH]; intros m H; [destruct m; discriminate|].
    destruct m as [|m]; [injection H as ->; reflexivity|]. cbn in *. now rewrite IH.
  Qed.

  Lemma last_ptrs_S i m : last (ptrs_of i (S m)) 0 = if clo i m then cnt (newn (i + 1)) m else last (ptrs_of i m) 0.
  Proof.
    unfold ptrs_of. rewrite sel_S. destruct (clo i m).
    - rewrite map_app, app_comm_cons. cbn [map]. apply last_last.
    - now rewrite app_nil_r.
  Qed.

  Lemma tb_add_ok m st doc : m < n -> nth_error docs m = Some doc -> tb_inv m st ->
    exists st', tb_add L st (doc, tc m) = Ok st' /\ tb_inv (S m) st'.
  Proof.
    intros Hm Hd (I1 & I2 & I3 & I4 & (O & I5 & HO) & I6 & I7 & I8 & I9).
    pose proof (tc_pos m Hm) as Hlen. pose proof L_pos as HL.
    destruct (Nat.eqb_spec m 0) as [Em|Em].
    - (* first record *)
      destruct m as [|m0]; [clear Em|lia]. unfold tb_add. rewrite I1, I2, I3, I4, I5, I7, I8, I9. cbn [length Nat.sub Nat.ltb Nat.leb].
      assert (El : forall c, trie_lcp (length (tc 0) - 1) 0 (tc 0) c = 0) by (intros; destruct (length (tc 0) - 1); reflexivity).
      rewrite El. cbn [for_range bind Nat.ltb Nat.leb].
      rewrite for_incr by lia. cbn [bind].
      rewrite (for_nodes L (get (tc 0)) (fun i => key i 0)) by (lia || (intros; unfold key; apply get_nth; lia)).
      cbn [bind]. eexists. split; [reflexivity|]. unfold tb_inv. cbn [tb_nodes tb_left tb_sizes tb_ptrs tb_offs tb_docs tb_prev tb_begin tb_end].
      split; [|split; [|split; [|split; [|split; [|split; [|split; [|split]]]]]]].
      + apply tab_ext. intros i Hi. rewrite sel_S. change (newn i 0) with (i <? length (tc 0)).
        replace ((0 <=? i) && (i <? 0 + (length (tc 0) - 1 + 1 - 0))) with (i <? length (tc 0)) by lia.
        destruct (i <? length (tc 0)); reflexivity.
      + apply tab_ext. intros i Hi. rewrite sel_S. change (newn i 0) with (i <? length (tc 0)).
        replace ((0 <=? i) && (i <? 0 + (length (tc 0) - 1 + 1 - 0))) with (i <? length (tc 0)) by lia.
        destruct (i <? length (tc 0)); reflexivity.
      + reflexivity.
      + reflexivity.
      + eexists. split; [reflexivity|]. intros i Hi. destruct (HO i Hi) as [H1 _].
        change (last (ptrs_of i 0) 0) with 0 in H1. change (last (ptrs_of i 1) 0) with 0.
        change (cnt (newn (i + 1)) 0) with 0 in H1. rewrite cnt_S. change (cnt (newn (i + 1)) 0) with 0.
        change (newn (i + 1) 0) with (i + 1 <? length (tc 0)). unfold opn.
        replace ((0 <=? i + 0) && (i + 0 <? 0 + (length (tc 0) - 1 + 0 - 0))) with (i + 1 <? length (tc 0)) by lia.
        split; [lia|]. intros _. replace (1 - 1) with 0 by lia. destruct (Nat.ltb_spec (i + 1) (length (tc 0))); lia.
      + rewrite I6. cbn. destruct docs as [|d ds]; [discriminate|]. cbn in Hd. injection Hd as ->. reflexivity.
      + reflexivity.
      + reflexivity.
      + reflexivity.
    - pose proof (tc_pos (m - 1) ltac:(lia)) as Hlenp. destruct (lc_lt m Hm ltac:(lia)) as [Hl1 Hl2].
      assert (Ebrk : forall i, brk i m = (lc m <=? i)).
      { intros i. unfold brk. fold n. destruct (Nat.eqb_spec m 0); [lia|]. destruct (Nat.leb_spec n m); [lia|]. reflexivity. }
      assert (Eclo : forall i, clo i m = (lc m <=? i) && (i <? length (tc (m - 1)))).
      { intros i. unfold clo. rewrite Ebrk. unfold opn. replace (1 <=? m) with true by lia. reflexivity. }
      assert (Enew : forall i, newn i m = (lc m <=? i) && (i <? length (tc m))).
      { intros i. unfold newn. now rewrite Ebrk. }
      unfold tb_add. rewrite I1, I2, I3, I4, I5, I7, I8, I9.
      change (trie_lcp (length (tc m) - 1) (length (tc (m - 1)) - 1) (tc m) (tc (m - 1))) with (lc m).
      destruct (Nat.ltb_spec 0 (length (tc (m - 1)) - 1)) as [_|H]; [|lia].
      rewrite for_close by (lia || discriminate). cbn [bind].
      set (one := if 0 <? lc m then 1 else 0).
      assert (Hone : one <= 1 /\ one <= lc m /\ (one = 0 -> lc m = 0)) by (unfold one; destruct (Nat.ltb_spec 0 (lc m)); lia).
      clearbody one.
      rewrite for_incr by lia. cbn [bind].
      rewrite (for_push (fun _ => m - 1)) by lia. cbn [bind].
      rewrite (for_nodes L (get (tc m)) (fun i => key i m)) by (lia || (intros; unfold key; apply get_nth; lia)).
      cbn [bind]. eexists. split; [reflexivity|]. unfold tb_inv. cbn [tb_nodes tb_left tb_sizes tb_ptrs tb_offs tb_docs tb_prev tb_begin tb_end].
      split; [|split; [|split; [|split; [|split; [|split; [|split; [|split]]]]]]].
      + apply tab_ext. intros i Hi. rewrite sel_S, map_app. f_equal. rewrite Enew.
        destruct (Nat.leb_spec (lc m) i); cbn [andb]; [|reflexivity].
        destruct (Nat.ltb_spec i (length (tc m))); destruct (Nat.ltb_spec i (lc m + (length (tc m) - 1 + 1 - lc m))); try lia; reflexivity.
      + apply tab_ext. intros i Hi. rewrite sel_S. f_equal. rewrite Enew.
        destruct (Nat.leb_spec (lc m) i); cbn [andb]; [|reflexivity].
        destruct (Nat.ltb_spec i (length (tc m))); destruct (Nat.ltb_spec i (lc m + (length (tc m) - 1 + 1 - lc m))); try lia; reflexivity.
      + apply tab_ext. intros i Hi. rewrite sel_S, map_app. f_equal. rewrite Eclo.
        destruct (Nat.leb_spec (lc m) i); cbn [andb]; [|reflexivity].
        destruct (Nat.ltb_spec i (length (tc (m - 1)))); destruct (Nat.ltb_spec i (lc m + (length (tc (m - 1)) - 1 + 1 - lc m))); try lia; cbn; [|reflexivity].
        f_equal. lia.
      + apply tab_ext. intros i Hi. unfold ptrs_of. rewrite sel_S, map_app, app_comm_cons. f_equal.
        rewrite Eclo.
        destruct (Nat.leb_spec (lc m) i) as [A|A]; cbn [andb]; [|reflexivity].
        destruct (Nat.ltb_spec i (length (tc (m - 1)))) as [B|B];
          destruct (Nat.ltb_spec i (lc m + (Nat.min (L - 1) (length (tc (m - 1)) - 1 + 1) - lc m))) as [C|C]; try lia; cbn [map]; [|reflexivity].
        f_equal. destruct (HO i Hi) as [H1 _]. change (0 :: map (cnt (newn (i + 1))) (sel (clo i) m)) with (ptrs_of i m). lia.
      + eexists. split; [reflexivity|]. intros i Hi. destruct (HO i Hi) as [H1 H2].
        specialize (H2 ltac:(lia)). rewrite last_ptrs_S, cnt_S.
        rewrite Eclo, Enew. unfold opn in *. replace (S m - 1) with m by lia.
        split.
        * destruct (Nat.leb_spec (lc m) i); destruct (Nat.leb_spec (lc m) (i + 1));
          destruct (Nat.ltb_spec i (length (tc (m - 1)))); destruct (Nat.ltb_spec (i + 1) (length (tc m)));
          destruct (Nat.ltb_spec i (lc m + (Nat.min (L - 1) (length (tc (m - 1)) - 1 + 1) - lc m)));
          destruct (Nat.leb_spec (lc m) (i + one)); destruct (Nat.ltb_spec (i + one) (lc m + (length (tc m) - 1 + one - lc m)));
          cbn [andb]; try specialize (H2 eq_refl); try lia.
        * intros _ H3. destruct (Nat.ltb_spec i (length (tc m))); [discriminate|].
          destruct (Nat.ltb_spec (i + one) (lc m + (length (tc m) - 1 + one - lc m))); [lia|]. rewrite andb_false_r.
          destruct (Nat.leb_spec (lc m) i); [|lia].
          destruct (Nat.ltb_spec i (lc m + (Nat.min (L - 1) (length (tc (m - 1)) - 1 + 1) - lc m))); cbn [andb]; [lia|].
          rewrite Nat.add_0_r. apply H2. apply Nat.ltb_ge. lia.
      + rewrite I6. symmetry. now apply firstn_snoc.
      + replace (S m - 1) with m by lia. reflexivity.
      + lia.
      + lia.
  Qed.

  Lemma recs_nth m doc : m < n -> nth_error docs m = Some doc ->
    nth_error (records docs cs) m = Some (doc, tc m).
  Proof.
    intros Hm Hd. unfold records.
    assert (Ht : nth_error (map terminated cs) m = Some (tc m)).
    { rewrite nth_error_map. rewrite (nth_error_nth' cs [] Hm). reflexivity. }
    clear -Hd Ht. revert Hd Ht. generalize (tc m) as c. intros c. revert m. generalize (map terminated cs). generalize docs.
    induction docs0 as [|a l IH]; intros l2 m Hd Ht; [destruct m; discriminate|].
    destruct l2 as [|b l2]; [destruct m; discriminate|].
    destruct m as [|m]; cbn in *; [congruence|]. now apply IH.
  Qed.

  Lemma tb_adds_ok : forall k m st, m + k = n -> tb_inv m st ->
    exists st', tb_adds L st (skipn m (records docs cs)) = Ok st' /\ tb_inv n st'.
  Proof.
    assert (Hlen : length (records docs cs) = n).
    { unfold records. rewrite combine_length, map_length, Hdocs. fold n. lia. }
    induction k as [|k IH]; intros m st Hk HI.
    - replace m with n in * by lia. rewrite skipn_all2 by lia. exists st. split; [reflexivity|exact HI].
    - assert (Hm : m < n) by lia.
      destruct (nth_error docs m) as [doc|] eqn:Ed; [|apply nth_error_None in Ed; fold n in Hdocs; lia].
      pose proof (recs_nth m doc Hm Ed) as Er.
      assert (Es : skipn m (records docs cs) = (doc, tc m) :: skipn (S m) (records docs cs)).
      { clear -Er. revert Er. generalize (tc m) as c. intros c. revert m. generalize (records docs cs).
        induction l as [|x l IH]; intros m H; [destruct m; discriminate|].
        destruct m as [|m]; [injection H as ->; reflexivity|]. cbn [skipn]. now rewrite (IH m H). }
      rewrite Es. cbn [tb_adds].
      destruct (tb_add_ok m st doc Hm Ed HI) as (st' & E & HI'). rewrite E. cbn [bind].
      apply IH; [lia|exact HI'].
  Qed.

  Lemma tb_init_ok : tb_inv 0 (tb_init L).
  Proof.
    unfold tb_inv, tb_init. cbn [tb_nodes tb_left tb_sizes tb_ptrs tb_offs tb_docs tb_prev tb_begin tb_end].
    rewrite !tab_repeat. repeat split; auto.
    exists (fun _ => 0). split; [reflexivity|]. intros i Hi. split; [reflexivity|lia].
  Qed.

  (** The arrays after the last record. [sel (clo i) (S n)] also closes the last nodes. *)
  Definition starts (i : nat) : list nat := sel (newn i) n.
  Definition closes (i : nat) : list nat := sel (clo i) (S n).
  Definition final_ptrs (i : nat) : list nat := ptrs_of i n ++ [cnt (newn (i + 1)) n].


  Lemma final_ok : exists st,
    tb_adds L (tb_init L) (records docs cs) = Ok st /\
    tb_nodes st = tab (fun i => map (key i) (starts i)) L /\
    tb_left st = tab starts L /\
    for_range (length (tb_prev st)) 0 (fun i sz => push_at sz i (tb_end st - 1)) (tb_sizes st) =
      Ok (tab (fun i => map pred (closes i)) L) /\
    for_range (L - 1) 0 (fun i ps => do nd <- get (tb_nodes st) (i + 1); push_at ps i (length nd)) (tb_ptrs st) =
      Ok (tab final_ptrs (L - 1)) /\
    tb_docs st = docs.
  Proof.
    destruct (tb_adds_ok n 0 (tb_init L) eq_refl tb_init_ok) as (st & E & I1 & I2 & I3 & I4 & _ & I6 & I7 & I8 & I9).
    exists st. split; [exact E|]. split; [exact I1|]. split; [exact I2|].
    pose proof n_pos as Hn. pose proof (tc_pos (n - 1) ltac:(lia)) as Ht.
    destruct (Nat.eqb_spec n 0); [lia|]. split; [|split].
    - rewrite I3, I7, I9. rewrite (for_push (fun _ => n - 1)) by lia. f_equal. apply tab_ext. intros i Hi.
      unfold closes. rewrite sel_S, map_app. f_equal. rewrite clo_n. unfold opn. cbn [Nat.leb andb Nat.add].
      destruct (Nat.ltb_spec i (length (tc (n - 1)))); [cbn; f_equal; lia|reflexivity].
    - rewrite I4, I1.
      assert (G : forall k lo F, lo + k <= L - 1 ->
        for_range k lo (fun i ps => do nd <- get (tab (fun i => map (key i) (sel (newn i) n)) L) (i + 1); push_at ps i (length nd)) (tab F (L - 1))
        = Ok (tab (fun i => F i ++ if (lo <=? i) && (i <? lo + k) then [cnt (newn (i + 1)) n] else []) (L - 1))).
      { intros k lo F Hk. rewrite <- (for_push (fun i => cnt (newn (i + 1)) n)) by lia.
        assert (X : forall k lo st, lo + k <= L - 1 ->
          for_range k lo (fun i ps => do nd <- get (tab (fun i => map (key i) (sel (newn i) n)) L) (i + 1); push_at ps i (length nd)) st =
          for_range k lo (fun i v => push_at v i (cnt (newn (i + 1)) n)) st).
        { clear. induction k as [|k IH]; intros lo st Hk; [reflexivity|]. cbn [for_range].
          rewrite tab_get by lia. cbn [bind]. rewrite map_length. fold (cnt (newn (lo + 1)) n).
          destruct (push_at st lo (cnt (newn (lo + 1)) n)); cbn [bind]; try reflexivity. apply IH. lia. }
        apply X. exact Hk. }
      rewrite G by lia. f_equal. apply tab_ext. intros i Hi. unfold final_ptrs. f_equal.
      replace ((0 <=? i) && (i <? 0 + (L - 1))) with true by lia. reflexivity.
    - rewrite I6. apply firstn_all2. fold n in Hdocs. lia.
  Qed.
End Build.
