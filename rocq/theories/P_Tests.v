(** Proofs about the test programs. *)
From Verif Require Import Base S_Order P_Order S_Vocab S_Completions S_Parse S_Text S_Trie S_Collection S_Files S_Containers S_Save.
From Verif Require Import M_Compare M_Heap S_Heap P_Heap M_Iter S_Intersect M_Fc M_IntFc M_Trie M_Containers M_Auto M_Auto1 M_CompactEf M_Real P_Real M_Input M_EfSeq M_Save M_Stored M_BenchDict M_Tests.
From Verif Require Import P_FcGen P_Fc P_IntFc P_Kept P_TrieBuild P_TrieFinal P_Containers P_Input P_Files P_Save P_Stored P_Fit P_Fit2 P_Fit3 P_BenchDict.
Local Open Scope nat_scope.

(** ** Loops *)
Lemma all_pass_ok {A St} (f : A -> St -> res (bool * St)) (I : St -> Prop) (P : A -> Prop) l :
  (forall x s, In x l -> I s -> exists b s', f x s = Ok (b, s') /\ I s' /\ (b = true <-> P x)) ->
  forall s, I s -> exists b s', all_pass f l s = Ok (b, s') /\ I s' /\ (b = true <-> Forall P l).
Proof.
  induction l as [|x l IH]; intros H s Hs; cbn [all_pass].
  - exists true, s. split; [reflexivity|]. split; [exact Hs|]. split; [constructor|reflexivity].
  - destruct (H x s (or_introl eq_refl) Hs) as (b & s1 & -> & Hs1 & Hb). cbn [bind]. destruct b.
    + destruct (IH (fun y s' Hy => H y s' (or_intror Hy)) s1 Hs1) as (b' & s2 & -> & Hs2 & Hb'). exists b', s2. split; [reflexivity|]. split; [exact Hs2|].
      rewrite Hb'. split; [intros Hl; constructor; [now apply Hb|exact Hl]|intros Hl; now inversion Hl].
    + exists false, s1. split; [reflexivity|]. split; [exact Hs1|]. split; [discriminate|]. intros Hl. inversion Hl; subst. now apply Hb.
Qed.
Lemma all_pass_UB {A St} (f : A -> St -> res (bool * St)) (I : St -> Prop) l1 x l2 :
  (forall y s, In y l1 -> I s -> exists s', f y s = Ok (true, s') /\ I s') -> (forall s, I s -> f x s = UB) ->
  forall s, I s -> all_pass f (l1 ++ x :: l2) s = UB.
Proof.
  intros H1 H2. induction l1 as [|y l1 IH]; intros s Hs; cbn [app all_pass]; [now rewrite H2|].
  destruct (H1 y s (or_introl eq_refl) Hs) as (s' & -> & Hs'). cbn [bind]. apply IH; [|exact Hs']. intros z s2 Hz. apply H1. now right.
Qed.
Lemma same_values_eq l : forall m, same_values l m = true <-> l = m.
Proof.
  induction l as [|x l IH]; intros [|y m]; cbn [same_values]; try (split; congruence). rewrite andb_true_iff, N.eqb_eq, IH. split; [intros [-> ->]; reflexivity|intros E; now injection E].
Qed.

(** ** The reference results of the tests *)
Lemma string_less_ok l : forall r, string_less l r = true <-> lex_lt l r.
Proof.
  induction l as [|x l IH]; intros [|y r]; cbn [string_less].
  - split; [discriminate|]. intros H. inversion H.
  - split; [constructor|reflexivity].
  - split; [discriminate|]. intros H. inversion H.
  - destruct (N.ltb_spec x y); [split; [now constructor|reflexivity]|]. destruct (N.ltb_spec y x).
    + split; [discriminate|]. intros H'. inversion H'; subst; lia.
    + assert (x = y) by lia. subst y. rewrite IH. split; [now constructor|]. intros H'. inversion H'; subst; [lia|assumption].
Qed.
Lemma strncmp_short l : forall r, nul_free l -> length l <= length r ->
  ((strncmp l r (length l) <= 0)%Z <-> ~ lex_lt r l) /\ ((strncmp l r (length l) < 0)%Z <-> lex_lt l r /\ ~ is_prefix l r).
Proof.
  induction l as [|x l IH]; intros r Hn Hl; cbn [length strncmp].
  - split; (split; [intros H|intros H]); try lia.
    + intros H'. inversion H'.
    + exfalso. apply (proj2 H). now exists r.
  - destruct r as [|y r]; [cbn in Hl; lia|]. inversion Hn as [|? ? Hx Hn']; subst. cbn [length] in Hl. destruct (IH r Hn' ltac:(lia)) as [IH1 IH2].
    destruct (N.ltb_spec x y); [|destruct (N.ltb_spec y x)].
    + split; (split; [intros _|intros _; lia]).
      * intros H'. inversion H'; subst; lia.
      * split; [now constructor|]. intros (z & E). injection E as E _. lia.
    + split; (split; [lia|]); [intros H'; exfalso; apply H'; now constructor|]. intros [H' _]. inversion H'; subst; lia.
    + assert (x = y) by lia. subst y. destruct (N.eqb_spec x 0); [lia|]. rewrite IH1, IH2. split.
      * split; intros H' H''; apply H'; [inversion H''; subst; [lia|assumption]|now constructor].
      * split; intros [H1 H2].
        -- split; [now constructor|]. intros (z & E). apply H2. exists z. now injection E.
        -- split; [inversion H1; subst; [lia|assumption]|]. intros (z & ->). apply H2. now exists z.
Qed.
Lemma strcmp_ok l : forall r, nul_free l -> nul_free r -> ((strcmp l r < 0)%Z <-> lex_lt l r).
Proof.
  unfold strcmp. induction l as [|x l IH]; intros r Hl Hr; cbn [length app Nat.add strncmp].
  - destruct r as [|y r]; cbn [app]; [cbn; split; [lia|intros H; inversion H]|]. inversion Hr; subst. destruct (N.ltb_spec 0 y); [|lia]. split; [constructor|lia].
  - inversion Hl as [|? ? Hx Hl']; subst. destruct r as [|y r]; cbn [app].
    + destruct (N.ltb_spec x 0); [lia|]. destruct (N.ltb_spec 0 x); [|lia]. split; [lia|intros H'; inversion H'].
    + inversion Hr as [|? ? Hy Hr']; subst. destruct (N.ltb_spec x y); [split; [now constructor|lia]|]. destruct (N.ltb_spec y x).
      * split; [lia|]. intros H'. inversion H'; subst; lia.
      * assert (x = y) by lia. subst y. destruct (N.eqb_spec x 0); [lia|]. rewrite (IH r Hl' Hr'). split; [now constructor|]. intros H'. inversion H'; subst; [lia|assumption].
Qed.
Lemma prefix_shorter p s : is_prefix p s -> length p <= length s.
Proof. intros (t & ->). rewrite app_length. lia. Qed.
Lemma comp_l_ok x p : nul_free x -> nul_free p -> (comp_l x p = true <-> lex_lt x p).
Proof.
  intros Hx Hp. unfold comp_l. destruct (Nat.ltb_spec (length x) (length p)).
  - rewrite Z.leb_le, (proj1 (strncmp_short x p Hx ltac:(lia))). split.
    + intros H'. destruct (lex_total x p) as [?|[->|?]]; [assumption|lia|tauto].
    + intros H'. now apply lex_asym.
  - rewrite Z.ltb_lt. now apply strcmp_ok.
Qed.
Lemma comp_r_ok p x : nul_free x -> nul_free p -> (comp_r p x = true <-> lex_lt p x /\ ~ is_prefix p x).
Proof.
  intros Hx Hp. unfold comp_r. destruct (Nat.ltb_spec (length p) (length x)).
  - rewrite Z.ltb_lt. apply (proj2 (strncmp_short p x Hp ltac:(lia))).
  - rewrite Z.ltb_lt, strcmp_ok by assumption. split; [|tauto]. intros H'. split; [exact H'|]. intros (t & E). destruct t; [rewrite app_nil_r in E; subst; now apply lex_irrefl in H'|].
    subst x. rewrite app_length in H. cbn [length] in H. lia.
Qed.
Lemma partition_ok (p : list N -> bool) l : lex_sorted l -> (forall a b, In a l -> In b l -> lex_lt a b -> p b = true -> p a = true) ->
  exists n, partition_point p l = Ok n /\ n <= length l /\ forall i x, nth_error l i = Some x -> (i < n <-> p x = true).
Proof.
  induction l as [|y l IH]; intros Hs Hp; cbn [partition_point].
  - exists 0. split; [reflexivity|]. split; [cbn; lia|]. intros [|i] x E; discriminate.
  - destruct (p y) eqn:Ey.
    + destruct IH as (n & -> & Hn & H); [now apply lex_sorted_tl in Hs|intros a b Ha Hb; apply Hp; now right|]. cbn [bind]. exists (n + 1). split; [reflexivity|].
      split; [cbn; lia|]. intros [|i] x E; cbn in E; [injection E as <-; split; [intros _; exact Ey|lia]|]. rewrite <- (H i x E). lia.
    + assert (Hf : forall x, In x l -> p x = false).
      { intros x Hx. destruct (p x) eqn:E; [|reflexivity]. rewrite (Hp y x) in Ey; [discriminate|now left|now right|now apply (lex_sorted_head _ l)|exact E]. }
      destruct (existsb p l) eqn:Ee; [apply existsb_exists in Ee; destruct Ee as (x & Hx & Ex); rewrite Hf in Ex by assumption; discriminate|].
      exists 0. split; [reflexivity|]. split; [lia|]. intros [|i] x E; cbn in E; (split; [lia|]); [injection E as <-; congruence|]. apply nth_error_In in E. rewrite Hf by assumption. discriminate.
Qed.
Lemma locate_ref terms i t : lex_sorted terms -> nth_error terms i = Some t -> test_locate terms t = Ok (i + 1).
Proof.
  intros Hs Hi. unfold test_locate. destruct (partition_ok (fun x => string_less x t) terms Hs) as (n & -> & Hn & H).
  { intros a b _ _ Hab. rewrite !string_less_ok. intros Hb. now apply lex_trans with b. }
  cbn [bind]. assert (n = i); [|now subst]. pose proof (H i t Hi) as H1. rewrite string_less_ok in H1.
  assert (~ i < n) by (rewrite H1; apply lex_irrefl). assert (~ n < i); [|lia]. intros Hlt.
  destruct (nth_error terms n) as [x|] eqn:En; [|apply nth_error_None in En; assert (i < length terms) by (apply nth_error_Some; congruence); lia].
  pose proof (H n x En) as H2. rewrite string_less_ok in H2. apply (Nat.lt_irrefl n), H2.
  apply nth_error_nth with (d := []) in En. apply nth_error_nth with (d := []) in Hi as Hi'. rewrite <- En, <- Hi'. apply lex_sorted_nth; auto. split; [exact Hlt|]. apply nth_error_Some. congruence.
Qed.
Lemma range_ref terms p : lex_sorted terms -> Forall nul_free terms -> nul_free p ->
  exists b e, test_range terms p = Ok (b, e) /\ e <= length terms /\ forall i x, nth_error terms i = Some x -> (b <= i < e <-> is_prefix p x).
Proof.
  intros Hs Hn Hp. rewrite Forall_forall in Hn. unfold test_range.
  destruct (partition_ok (fun x => comp_l x p) terms Hs) as (b & -> & Hb & H1).
  { intros x y Hx Hy Hxy. rewrite !comp_l_ok by auto. intros H. now apply lex_trans with y. }
  destruct (partition_ok (fun x => negb (comp_r p x)) terms Hs) as (e & -> & He & H2).
  { intros x y Hx Hy Hxy. rewrite !negb_true_iff. intros H. destruct (comp_r p x) eqn:E; [|reflexivity]. rewrite <- H. symmetry. apply comp_r_ok; auto.
    apply comp_r_ok, pcmp_gt in E; auto. apply pcmp_gt. now apply (pcmp_mono x y p Hxy). }
  cbn [bind]. exists b, e. split; [reflexivity|]. split; [exact He|]. intros i x Hi. pose proof (nth_error_In _ _ Hi) as Hin.
  specialize (H1 i x Hi). specialize (H2 i x Hi). cbn beta in H2. rewrite comp_l_ok in H1 by auto. rewrite negb_true_iff in H2.
  assert (H3 : comp_r p x = false <-> ~ (lex_lt p x /\ ~ is_prefix p x)).
  { rewrite <- comp_r_ok by auto. destruct (comp_r p x); split; congruence. }
  split.
  - intros [Hbi Hie]. apply H2, H3 in Hie. assert (Hx : ~ lex_lt x p) by (intros H; apply H1 in H; lia). apply pcmp_eq. rewrite <- pcmp_lt in Hx. rewrite <- pcmp_gt in Hie. now destruct (pcmp x p).
  - intros Hpre. split; [|apply H2, H3; tauto]. assert (~ i < b); [|lia]. rewrite H1. intros H. destruct (prefix_lex _ _ Hpre) as [->|H']; [now apply lex_irrefl in H|now apply lex_asym in H].
Qed.

(** ** test_fc_dictionary *)
Section FcTest.
  Variable terms : list (list N).
  Hypothesis W : wf_vocab terms.
  Variable d : fcd.
  Hypothesis Ed : fc_build terms = Ok d.
  Hypothesis Hfew : (N.of_nat (length terms) < 1073741823)%N.
  Let bufs (s : list N * list N) : Prop := length (fst s) = 256 /\ length (snd s) = 256.

  Lemma check_term_ok t s : In t terms -> bufs s -> exists b s', check_term d terms t s = Ok (b, s') /\ bufs s' /\ (b = true <-> In t (stored terms)).
  Proof using W Ed Hfew.
    intros Hin Hs. destruct s as [dec out]. destruct Hs as [Hdec Hout]. cbn [fst snd] in *. destruct (In_nth_error _ _ Hin) as (i & Hi).
    unfold check_term. rewrite (locate_ref terms i t (proj1 W) Hi). cbn [bind].
    destruct (fc_locate_any terms W) as (d' & Ed' & L). rewrite Ed in Ed'. injection Ed' as <-.
    destruct (L t dec Hdec) as (r & dec' & -> & Hdec' & Hr). cbn [bind].
    destruct (fc_extract_any terms W) as (d' & Ed' & X & _). rewrite Ed in Ed'. injection Ed' as <-.
    destruct r as [id|]; cbn [id_value].
    - destruct (proj1 (Hr id) eq_refl) as [Hid Hst]. pose proof (stored_nth_error _ _ _ Hst) as Hst'.
      assert (id - 1 = i). { apply nth_error_nth with (d := []) in Hst' as E1. apply nth_error_nth with (d := []) in Hi as E2.
        apply (lex_sorted_nth_inj terms _ _ []); [apply W|apply nth_error_Some; congruence|apply nth_error_Some; congruence|congruence]. }
      replace id with (i + 1) in * by lia. rewrite Nat.eqb_refl. replace (i + 1 - 1) with i in Hst by lia.
      destruct (X i t Hst out 0 ltac:(lia)) as (out' & -> & Hl' & _ & Hf). cbn [bind].
      destruct W as (_ & _ & Wt). rewrite Forall_forall in Wt. destruct (Wt t Hin) as [_ Hlt]. rewrite Nat.mod_small by lia. rewrite Nat.eqb_refl.
      unfold slice. destruct (Nat.leb_spec (0 + length t) (length out')); [|lia]. cbn [bind]. exists (same_values t (firstn (length t) (skipn 0 out'))), (dec', out').
      split; [reflexivity|]. split; [split; [exact Hdec'|cbn [snd]; congruence]|]. rewrite same_values_eq. cbn [skipn] in *. rewrite Hf. split; [|reflexivity].
      intros _. now apply nth_error_In in Hst.
    - assert (Hlost : ~ In t (stored terms)).
      { intros Ht. destruct (In_nth_error _ _ Ht) as (j & Hj). discriminate (proj2 (Hr (j + 1))). split; [lia|]. now replace (j + 1 - 1) with j by lia. }
      destruct (Nat.eqb_spec (N.to_nat INVALID_TERM_ID) (i + 1)) as [E|E].
      + exfalso. assert (i < length terms) by (apply nth_error_Some; congruence). unfold INVALID_TERM_ID in E. lia.
      + exists false, (dec', out). split; [reflexivity|]. split; [split; assumption|]. split; [discriminate|tauto].
  Qed.

  Lemma check_prefix_ok p x s : terms = stored terms -> In x terms -> is_prefix p x -> p <> [] -> bufs s ->
    exists b s', check_prefix d terms p s = Ok (b, s') /\ bufs s' /\ (b = true <-> (is_prefix p (nth 0 terms []) -> p = nth 0 terms [])).
  Proof using W Ed Hfew.
    intros Hst Hin Hpx Hne Hs. destruct s as [dl dr]. destruct Hs as [Hdl Hdr]. cbn [fst snd] in *. unfold check_prefix.
    destruct W as (Ws & Wne & Wt). assert (Hnf : Forall nul_free terms) by (eapply Forall_impl; [|exact Wt]; now intros ? []).
    assert (Hpf : nul_free p).
    { rewrite Forall_forall in Hnf. specialize (Hnf x Hin). destruct Hpx as (z & ->). now apply Forall_app in Hnf. }
    destruct (range_ref terms p Ws Hnf Hpf) as (b & e & -> & He & Hr). cbn [bind].
    destruct (fc_locate_prefix_any terms W) as (d' & Ed' & L). rewrite Ed in Ed'. injection Ed' as <-.
    destruct (L p dl dr Hdl Hdr) as (r & dl' & dr' & -> & Hdl' & Hdr' & _ & Hr2). cbn [bind]. specialize (Hr2 Hne). rewrite <- Hst in Hr2.
    eexists _, (dl', dr'). split; [reflexivity|]. split; [split; assumption|]. rewrite andb_true_iff, !N.eqb_eq.
    assert (Hn : forall i, i < length terms -> (b <= i < e <-> is_prefix p (nth i terms []))).
    { intros i Hi. apply Hr. now apply nth_error_nth'. }
    assert (H0 : 0 < length terms) by (destruct terms; [congruence|cbn; lia]).
    destruct (In_nth_error _ _ Hin) as (j & Hj). assert (Hjl : j < length terms) by (apply nth_error_Some; congruence).
    assert (Hjr : b <= j < e) by now apply (Hr j x Hj).
    assert (Hwrap : ((N.of_nat e + 18446744073709551615) mod 18446744073709551616 = N.of_nat (e - 1))%N).
    { replace (N.of_nat e + 18446744073709551615)%N with (N.of_nat (e - 1) + 1 * 18446744073709551616)%N by lia. rewrite N.mod_add by lia. apply N.mod_small. lia. }
    rewrite Hwrap. split.
    - intros [E1 E2] Hp0. destruct r as [[a z]|]; cbn [bounds_of fst snd] in E1, E2; [|lia]. destruct Hr2 as [Haz Hr2].
      assert (b = 0) by (pose proof (proj2 (Hn 0 H0) Hp0); lia). assert (a = 0) by lia.
      destruct (proj1 (Hr2 0 H0) ltac:(lia)) as [_ Hf]. destruct (Hf eq_refl); [tauto|congruence].
    - intros H. assert (Hsame : forall i, i < length terms -> (is_prefix p (nth i terms []) <-> found_by (nth 0 terms []) p (nth i terms []))).
      { intros i Hi. unfold found_by. split; [|tauto]. intros Hp. split; [exact Hp|]. intros E. rewrite E in *. right. symmetry. now apply H. }
      destruct r as [[a z]|].
      + destruct Hr2 as [Haz Hr2]. cbn [bounds_of fst snd].
        assert (forall i, i < length terms -> (b <= i < e <-> a <= i <= z)) by (intros i Hi; rewrite (Hn i Hi), (Hsame i Hi), (Hr2 i Hi); reflexivity).
        pose proof (proj2 (H1 a ltac:(lia))). pose proof (proj2 (H1 z ltac:(lia))). pose proof (proj1 (H1 b ltac:(lia))). pose proof (proj1 (H1 (e - 1) ltac:(lia))). lia.
      + exfalso. apply (Hr2 j Hjl). apply Hsame; [exact Hjl|]. now apply Hn.
  Qed.

  Lemma check_all_prefixes : terms = stored terms -> forall s, bufs s ->
    exists b s', all_pass (fun t => all_pass (fun n => check_prefix d terms (firstn n t)) (seq 1 (length t))) terms s = Ok (b, s') /\ bufs s' /\
      (b = true <-> length (nth 0 terms []) = 1).
  Proof using W Ed Hfew.
    intros Hst s Hs. set (first := nth 0 terms []). set (good := fun p => is_prefix p first -> p = first).
    destruct (all_pass_ok (fun t => all_pass (fun n => check_prefix d terms (firstn n t)) (seq 1 (length t))) bufs (fun t => Forall (fun n => good (firstn n t)) (seq 1 (length t))) terms)
      with (s := s) as (b & s' & E & Hs' & Hb); [|exact Hs|].
    - intros x s1 Hin Hs1. apply all_pass_ok; [|exact Hs1]. intros n s2 Hn Hs2. apply in_seq in Hn. apply (check_prefix_ok (firstn n x) x s2); auto.
      + exists (skipn n x). symmetry. apply firstn_skipn.
      + destruct x; [cbn in Hn; lia|]. destruct n; [lia|discriminate].
    - exists b, s'. split; [exact E|]. split; [exact Hs'|]. rewrite Hb. destruct W as (Ws & Wne & Wt).
      assert (Hf : In first terms) by (apply nth_In; destruct terms; [congruence|cbn; lia]).
      rewrite Forall_forall in Wt. destruct (Wt first Hf) as [_ Hfl]. split.
      + intros H. rewrite Forall_forall in H. specialize (H first Hf). rewrite Forall_forall in H. specialize (H 1 ltac:(apply in_seq; lia)).
        assert (E1 : firstn 1 first = first) by (apply H; exists (skipn 1 first); symmetry; apply firstn_skipn).
        rewrite <- E1, firstn_length. lia.
      + intros H. apply Forall_forall. intros x Hx. apply Forall_forall. intros n Hn. apply in_seq in Hn. intros (z & Ez).
        pose proof (f_equal (@length N) Ez) as El. rewrite app_length, firstn_length in El. assert (Hz : length z = 0) by lia. destruct z; [now rewrite app_nil_r in Ez|discriminate].
  Qed.
End FcTest.

Lemma read_rest_ok ws : forall fuel st old, before st ws -> length ws < fuel -> read_rest fuel st old = Ok ws.
Proof.
  induction ws as [|w ws IH]; intros fuel st old Hb Hf; (destruct fuel as [|fuel]; [cbn in Hf; lia|]); cbn [read_rest].
  - enough (E : st_fail (fst (in_string st old)) = true) by (destruct (in_string st old); cbn [fst] in E; now rewrite E).
    destruct Hb as (Hfl & Hl & He). unfold in_string. destruct (M_Input.good st); [|reflexivity]. inversion Hl as [gap Hg E1 E2|]; subst.
    rewrite skip_all by assumption. reflexivity.
  - destruct (in_string_word st w ws old Hb) as (st1 & -> & Hb1). destruct Hb1 as (Hfl & Hb1). rewrite Hfl. rewrite (IH fuel st1 w); [reflexivity|now split|cbn in Hf; lia].
Qed.

(** ** test_integer_fc_dictionary *)
Section IfcTest.
  Variable cs : list (list N).
  Hypothesis W : wf_completions cs.
  Variable d : fcd.
  Hypothesis Ed : ifc_build (map terminated cs) = Ok d.
  Let bufs (s : list N * list N) : Prop := length (fst s) = 128 /\ length (snd s) = 128.

  Lemma check_completion_ok i c s : nth_error (stored cs) i = Some c -> bufs s -> exists s', check_completion d (i, terminated c) s = Ok (true, s') /\ bufs s'.
  Proof using W Ed.
    intros Hi Hs. destruct s as [dec out]. destruct Hs as [Hdec Hout]. cbn [fst snd] in *. unfold check_completion.
    pose proof (stored_In _ _ (nth_error_In _ _ Hi)) as Hin. destruct W as (_ & _ & Wc). rewrite Forall_forall in Wc. destruct (Wc c Hin) as [_ Hlen].
    unfold terminated. rewrite app_length. cbn [length]. destruct (Nat.eqb_spec (length c + 1) 0); [lia|].
    destruct (ifc_extract_any cs W) as (d' & Ed' & X & _). rewrite Ed in Ed'. injection Ed' as <-.
    destruct (X i c Hi out ltac:(lia)) as (out' & -> & Hl & Hf). cbn [bind]. rewrite Nat.mod_small by lia. replace (length c + 1 - 1) with (length c) by lia.
    rewrite Nat.eqb_refl. unfold slice. destruct (Nat.leb_spec (0 + length c) (length out')); [|lia]. cbn [bind skipn]. rewrite Hf.
    rewrite firstn_app, firstn_all, Nat.sub_diag. cbn [firstn]. rewrite app_nil_r. rewrite (proj2 (same_values_eq c c) eq_refl).
    destruct (ifc_locate_any cs W) as (d' & Ed' & L). rewrite Ed in Ed'. injection Ed' as <-.
    destruct (proj1 (L c dec Hdec) i Hi) as (dec' & -> & Hdec'). cbn [bind]. rewrite Nat.eqb_refl. exists (dec', out'). split; [reflexivity|]. split; [exact Hdec'|cbn [snd]; lia].
  Qed.
  Lemma check_completion_UB i c s : length (stored cs) <= i < length cs -> bufs s -> check_completion d (i, terminated c) s = UB.
  Proof using W Ed.
    intros Hi Hs. destruct s as [dec out]. unfold check_completion. unfold terminated. rewrite app_length. cbn [length]. destruct (Nat.eqb_spec (length c + 1) 0); [lia|].
    destruct (ifc_extract_any cs W) as (d' & Ed' & _ & X). rewrite Ed in Ed'. injection Ed' as <-. now rewrite X.
  Qed.
End IfcTest.

Lemma combine_seq_In {A} (l : list A) : forall k i x, In (i, x) (combine (seq k (length l)) l) -> k <= i /\ nth_error l (i - k) = Some x.
Proof.
  induction l as [|y l IH]; intros k i x H; cbn [length seq combine In] in H; [contradiction|]. destruct H as [E|H].
  - injection E as <- <-. split; [lia|]. now rewrite Nat.sub_diag.
  - destruct (IH (S k) i x H) as [H1 H2]. split; [lia|]. replace (i - k) with (S (i - S k)) by lia. exact H2.
Qed.

Lemma combine_app {A B} (l1 : list A) : forall (m1 : list B) l2 m2, length l1 = length m1 -> combine (l1 ++ l2) (m1 ++ m2) = combine l1 m1 ++ combine l2 m2.
Proof. induction l1 as [|x l1 IH]; intros [|y m1] l2 m2 H; try discriminate; [reflexivity|]. cbn [app combine]. f_equal. apply IH. now injection H. Qed.

Section Whole.
  Variable c : collection.
  Hypothesis Hwf : wf_collection c.
  Hypothesis Hd : small_dict c.
  Variable t : texts.
  Hypothesis Ht : holds_collection c t.

  Lemma test_fc_ok old fuel : length (t_dict t) < fuel ->
    exists b, test_fc old fuel t = Ok b /\ (b = true <-> not_multiple_of_17 (length (terms c)) /\ length (nth 0 (terms c) []) = 1).
  Proof using Hwf Hd Ht.
    intros Hf. unfold test_fc. destruct (load_full c Hwf t Ht) as (p & -> & Et & _). cbn [bind]. rewrite Et, Nat2N.id.
    pose proof (before_open _ _ (hc_dict _ _ Ht)) as Hb. destruct (read_words_ok (terms c) _ [] Hb) as (st' & -> & _). cbn [snd].
    destruct (fc_extract_any (terms c) (wf_terms c Hwf)) as (d & Ed & _). rewrite Ed. cbn [bind].
    pose proof (dict_good d (dict_c c Hd d Ed) old []) as Hg. rewrite app_nil_r in Hg. unfold load_file, save_file. rewrite Hg. cbn [bind].
    rewrite (read_rest_ok (terms c) fuel _ [] Hb) by (pose proof (layout_length _ _ (hc_dict _ _ Ht)); lia). cbn [bind].
    pose proof (wf_terms c Hwf) as W. destruct (wf_few c Hwf) as [_ Hfew].
    destruct (all_pass_ok (check_term d (terms c)) (fun s => length (fst s) = 256 /\ length (snd s) = 256) (fun x => In x (stored (terms c))) (terms c)) with (s := (repeat 0%N 256, repeat 0%N 256))
      as (b & s' & E & _ & Hb1).
    { intros x s Hx Hs. exact (check_term_ok (terms c) W d Ed Hfew x s Hx Hs). }
    { split; apply repeat_length. }
    rewrite E. cbn [bind]. assert (Hall : Forall (fun x => In x (stored (terms c))) (terms c) <-> not_multiple_of_17 (length (terms c))).
    { unfold not_multiple. destruct (Nat.eq_dec (length (terms c) mod (BUCKET + 1)) 0) as [E0|E0].
      - split; [|contradiction]. intros H. exfalso. pose proof (NoDup_incl_length (lex_sorted_NoDup _ (proj1 W)) (l' := stored (terms c))) as Hl.
        rewrite stored_length, E0 in Hl. cbn [Nat.eqb] in Hl. assert (Hne : length (terms c) <> 0) by (destruct W as (_ & Hne & _); rewrite length_zero_iff_nil; exact Hne).
        enough (length (terms c) <= length (terms c) - BUCKET) by (pose proof bucket_pos; lia). apply Hl. intros x Hx. rewrite Forall_forall in H. now apply H.
      - split; [intros _; exact E0|]. intros _. apply Forall_forall. intros x Hx. now rewrite stored_all. }
    destruct b.
    - assert (Hn : not_multiple_of_17 (length (terms c))) by now apply Hall, Hb1.
      destruct (check_all_prefixes (terms c) W d Ed Hfew (eq_sym (stored_all _ Hn)) (repeat 0%N 256, repeat 0%N 256)) as (b & s2 & -> & _ & Hb2).
      { split; apply repeat_length. }
      cbn [bind]. exists b. split; [reflexivity|]. rewrite Hb2. tauto.
    - exists false. split; [reflexivity|]. split; [discriminate|]. intros [H _]. now apply Hb1, Hall.
  Qed.

  Lemma test_ifc_ok old fuel junk : length (t_mapped t) < fuel ->
    test_ifc old fuel junk t = if length (comps c) mod (BUCKET + 1) =? 0 then UB else Ok true.
  Proof using Hwf Ht.
    intros Hf. unfold test_ifc. destruct (load_full c Hwf t Ht) as (p & -> & _ & Ec & Eu & _). cbn [bind]. rewrite Ec, Eu, !Nat2N.id.
    destruct (read_comps c Hwf t Ht fuel junk Hf) as (e & ->). cbn [bind]. rewrite (recs_comps c Hwf), (recs_docs c Hwf).
    pose proof (wf_comps c Hwf) as W. destruct (ifc_extract_any (comps c) W) as (d & Ed & _). rewrite Ed. cbn [bind].
    destruct (docid_to_lexid_any (universe c) (docs c)) as (m & -> & _); [apply (wf_docs_nodup c Hwf)|apply Forall_forall, (wf_docs_lt c Hwf)|]. cbn [bind].
    pose proof (idict_good d (idict_c c Hwf d Ed) old []) as Hg. rewrite app_nil_r in Hg. unfold load_file, save_file. rewrite Hg. cbn [bind].
    set (cs := comps c) in *. set (bufs := fun s : list N * list N => length (fst s) = 128 /\ length (snd s) = 128).
    assert (H0 : bufs (repeat 0%N 128, repeat 0%N 128)) by (split; apply repeat_length).
    assert (Hin : forall l k x, In x (combine (seq k (length l)) (map terminated l)) -> exists i y, x = (i, terminated y) /\ k <= i /\ nth_error l (i - k) = Some y).
    { intros l k [i x] H. rewrite <- (map_length terminated l) in H. apply combine_seq_In in H as [H1 H2]. rewrite nth_error_map in H2. destruct (nth_error l (i - k)) as [y|] eqn:Ey; [|discriminate]. injection H2 as <-. eauto. }
    destruct (Nat.eqb_spec (length cs mod (BUCKET + 1)) 0) as [E0|E0].
    - pose proof (stored_17 cs E0) as E1. pose proof (stored_length cs) as E2. rewrite E0 in E2. cbn [Nat.eqb] in E2.
      assert (Hne : length cs <> 0) by (destruct W as (_ & Hne & _); rewrite length_zero_iff_nil; exact Hne).
      destruct (nth_error cs (length (stored cs))) as [x|] eqn:Ex; [|apply nth_error_None in Ex; pose proof bucket_pos; lia].
      destruct (stored_split cs) as (rest & Er). destruct rest as [|y rest]; [exfalso; rewrite Er in Ex at 1; rewrite app_nil_r in Ex; assert (length (stored cs) < length (stored cs)) by (apply nth_error_Some; congruence); lia|].
      rewrite Er at 1 2. rewrite app_length, seq_app, map_app, combine_app by (now rewrite seq_length, map_length). cbn [length seq map combine Nat.add].
      rewrite (all_pass_UB (check_completion d) bufs); [reflexivity| | |exact H0].
      + intros z s Hz Hs. destruct (Hin _ _ _ Hz) as (i & w & -> & _ & Hw). rewrite Nat.sub_0_r in Hw. exact (check_completion_ok cs W d Ed i w s Hw Hs).
      + intros s Hs. apply (check_completion_UB cs W d Ed); [|exact Hs]. pose proof (f_equal (@length _) Er) as El. rewrite app_length in El. cbn [length] in El. lia.
    - pose proof (stored_all cs E0) as E1.
      destruct (all_pass_ok (check_completion d) bufs (fun _ => True) (combine (seq 0 (length cs)) (map terminated cs))) with (s := (repeat 0%N 128, repeat 0%N 128)) as (b & s' & -> & _ & Hb); [|exact H0|].
      + intros z s Hz Hs. destruct (Hin _ _ _ Hz) as (i & w & -> & _ & Hw). rewrite Nat.sub_0_r in Hw. rewrite <- E1 in Hw.
        destruct (check_completion_ok cs W d Ed i w s Hw Hs) as (s' & E & Hs'). exists true, s'. split; [exact E|]. split; [exact Hs'|tauto].
      + cbn [bind]. f_equal. apply Hb. now apply Forall_forall.
  Qed.

  Lemma test_trie_ok sort fresh old fuel junk : sorts_by_size ce_ops sort -> length (t_mapped t) < fuel -> test_trie fresh old fuel junk t = Ok true.
  Proof using Hwf Ht.
    intros Hsort Hf. unfold test_trie. destruct (load_full c Hwf t Ht) as (p & -> & _ & Ec & _ & El). cbn [bind]. rewrite Ec, El, !Nat2N.id.
    destruct (read_mapped_ok _ fuel junk _ (coll_records_valid c Hwf) (hc_mapped _ _ Ht) Hf) as (e & -> & _). cbn [bind].
    replace (map (fun r => (N.to_nat (fst r), snd r)) (map terminate (combine (map N.of_nat (docs c)) (comps c)))) with (S_Trie.records (docs c) (comps c)) by (symmetry; now apply coll_records).
    destruct (trie_spec (comps c) (docs c) (wf_comps c Hwf) (wf_docs_len c Hwf)) as (ta & Et & _ & Hmono & _).
    assert (Hfit : trie_fits ta).
    { rewrite (trie_build_eq (comps c) (wf_comps c Hwf) (docs c) (wf_docs_len c Hwf)) in Et. injection Et as <-.
      apply trie_fits_ok; [apply (wf_comps c Hwf)|]. pose proof (P_Collection.n_le_universe c Hwf). pose proof (wf_universe c Hwf). lia. }
    destruct (trie_store_ok _ (real_containers_ok 0 sorting_heap sort eq_refl sorting_heap_ok Hsort) ta Hmono Hfit) as (x & Es & Hx).
    rewrite (trie_view 0 sorting_heap sort (length (comps c))) in Es. rewrite Et. cbn [bind].
    destruct (trie_store_d (length (comps c)) ta) as [d| | |] eqn:Ed; try discriminate Es. cbn [bind] in *. injection Es as <-.
    assert (Esz : td_size d = length (comps c)).
    { unfold trie_store_d in Ed. repeat match type of Ed with bind ?e _ = _ => destruct e; try discriminate Ed; cbn [bind] in Ed end. now injection Ed as <-. }
    rewrite Esz, N.eqb_refl. destruct (wf_few c Hwf) as [Hfew _].
    pose proof (trie_good fresh d (trie_fit (comps c) (docs c) (wf_comps c Hwf) (wf_docs_len c Hwf) Hfew ta d Et Ed) old []) as Hg. rewrite app_nil_r in Hg.
    unfold load_file, save_file. rewrite Hg. cbn [bind]. rewrite Esz, N.eqb_refl. rewrite (recs_comps c Hwf).
    destruct (all_pass_ok (fun c (s : unit) => do b <- trie_is_member (trie_of d) c; Ok (b, s)) (fun _ => True) (fun _ => True) (map terminated (comps c))) with (s := tt) as (b & s' & -> & _ & Hb); [|exact I|].
    - intros y s Hy _. apply in_map_iff in Hy as (z & <- & Hz). pose proof (wf_comps c Hwf) as (_ & _ & Wc). rewrite Forall_forall in Wc. destruct (Wc z Hz) as [Hz1 _].
      destruct (trie_spec (comps c) (docs c) (wf_comps c Hwf) (wf_docs_len c Hwf)) as (ta' & Et' & _ & _ & D). rewrite Et in Et'. injection Et' as <-.
      destruct (proj2 (D (trie_of d) Hx) z) as (r & -> & Hr); [eapply Forall_impl; [|exact Hz1]; cbn; lia|]. cbn [bind]. exists r, s. split; [reflexivity|]. split; [exact I|]. split; [trivial|]. intros _. now apply Hr.
    - cbn [bind]. f_equal. apply Hb. now apply Forall_forall.
  Qed.
End Whole.
