(** Proofs about the test of locate_prefix. *)
From Verif Require Import Base S_Order P_Order S_Vocab S_Completions S_Parse S_Text S_Trie S_Collection S_Found S_Files S_Containers S_Tools S_Meta S_Starts S_BenchDict S_TestPrefix.
From Verif Require Import M_Compare M_Heap S_Heap P_Heap M_Iter S_Intersect M_Fc M_IntFc M_Find M_Trie M_Containers M_Auto M_Auto1 M_CompactEf M_Real P_Real M_Input M_Tools M_EfSeq M_Save M_Stored M_BenchDict M_Tests M_TestPrefix.
From Verif Require Import P_FcGen P_Fc P_IntFc P_Kept P_Parse P_ParseFc P_TrieBuild P_TrieFinal P_Containers P_Collection P_Core2 P_Prep P_Input P_Files P_Tools P_Stored P_Again P_Starts P_BenchDict P_Tests.
Local Open Scope nat_scope.

(** ** Order of the texts *)
Lemma word_lt v w x y : lex_lt v w -> above w -> tail_ok x -> lex_lt (v ++ x) (w ++ y).
Proof.
  intros H Hw Hx. induction H as [z ys|a b xs ys H|a xs ys H IH]; cbn [app].
  - inversion Hw; subst. destruct Hx as [->|(u & ->)]; constructor. assumption.
  - now constructor.
  - apply lex_tail. apply IH. now inversion Hw.
Qed.
Lemma join_lt (f : N -> list N) a b : lex_lt a b -> Forall (fun x => f x <> [] /\ above (f x)) b ->
  (forall x y, In x a -> In y b -> (x < y)%N -> lex_lt (f x) (f y)) -> lex_lt (join (map f a)) (join (map f b)).
Proof.
  induction 1 as [y ys|x y xs ys H|x xs ys H IH]; intros Hb Hf.
  - cbn [map]. destruct (join_tail (f y) (map f ys)) as (u & -> & _). inversion Hb as [|? ? (Hy & _) _]; subst. destruct (f y); [congruence|constructor].
  - cbn [map]. destruct (join_tail (f x) (map f xs)) as (u & -> & Hu & _), (join_tail (f y) (map f ys)) as (v & -> & _). inversion Hb as [|? ? (_ & Hy) _]; subst.
    apply word_lt; auto. apply Hf; [now left|now left|exact H].
  - inversion Hb; subst. assert (L : lex_lt (join (map f xs)) (join (map f ys))) by (apply IH; auto; intros; apply Hf; auto; now right).
    cbn [map]. destruct ys as [|y ys]; [inversion H|]. rewrite (join_cons (f x) (map f (y :: ys))) by discriminate. destruct xs as [|z xs].
    + cbn [map join]. apply lex_app_ext.
    + rewrite join_cons by discriminate. apply lex_app_r, lex_tail. exact L.
Qed.

(** ** Squeezed texts *)
Lemma squeeze_length q : forall b, length (squeeze_after b q) <= length q.
Proof. induction q as [|x q IH]; intros b; cbn [squeeze_after]; [lia|]. pose proof (IH true). pose proof (IH false). destruct (x =? 32)%N, b; cbn [length]; lia. Qed.
Lemma squeeze_app p : forall b r, exists b', squeeze_after b (p ++ r) = squeeze_after b p ++ squeeze_after b' r.
Proof.
  induction p as [|x p IH]; intros b r; [now exists b|]. cbn [app squeeze_after]. destruct (x =? 32)%N; [destruct b|].
  - apply IH.
  - destruct (IH true r) as (b' & E). exists b'. now rewrite E.
  - destruct (IH false r) as (b' & E). exists b'. now rewrite E.
Qed.
Lemma app_inj_len {A} (a c : list A) : forall b d, length a = length c -> a ++ b = c ++ d -> a = c.
Proof. revert c. induction a as [|x a IH]; intros [|y c] b d Hl E; try discriminate; [reflexivity|]. cbn in *. injection E as -> E. f_equal. eapply IH; eauto. Qed.
Lemma squeeze_prefix p s : is_prefix p s -> squeeze s = s -> squeeze p = p.
Proof.
  intros (r & ->) E. unfold squeeze in *. destruct (squeeze_app p true r) as (b & Es). rewrite Es in E. pose proof (squeeze_length p true). pose proof (squeeze_length r b).
  apply (f_equal (@length _)) in E as El. rewrite !app_length in El. eapply app_inj_len; [|exact E]. lia.
Qed.
Lemma squeeze_join ws : Forall plain ws -> squeeze (join ws) = join ws.
Proof.
  unfold squeeze. induction 1 as [|w ws (Hne & Hn) Hws IH]; [reflexivity|]. destruct ws as [|v ws]; [cbn [join]; now apply squeeze_word|].
  rewrite join_cons by discriminate. rewrite squeeze_words by assumption. now rewrite IH.
Qed.

(** ** Two descriptions of a range *)
Lemma same_range n n' (P Q : nat -> Prop) r b e : (N.of_nat n < 18446744073709551615)%N -> n' <= n -> e <= n -> (forall i, i < n -> (b <= i < e <-> Q i)) ->
  match r with Some (x, y) => exact_range_excl n' P x y | None => forall i, i < n' -> ~ P i end ->
  ((fst (bounds_of r) =? N.of_nat b)%N && (snd (bounds_of r) =? N.of_nat e)%N = true <->
   (exists i, i < n /\ Q i) /\ forall i, i < n -> (Q i <-> i < n' /\ P i)).
Proof.
  intros Hn Hn' He HQ Hr. rewrite andb_true_iff, !N.eqb_eq. destruct r as [(x, y)|]; cbn [bounds_of fst snd].
  - destruct Hr as ((Hxy & Hy) & HP). split.
    + intros (E1 & E2). assert (x = b) by lia. assert (y = e) by lia. subst. split; [exists b; split; [lia|]; apply HQ; lia|].
      intros i Hi. rewrite <- (HQ i Hi). split; [intros H; split; [lia|]; apply HP; lia|]. intros (H1 & H2). now apply HP.
    + intros ((i & Hi & Hq) & H). pose proof (proj1 (H i Hi) Hq) as (Hi' & Hp). apply HP in Hp; [|exact Hi']. apply HQ in Hq; [|exact Hi].
      assert (A : b <= x < e) by (apply HQ; [lia|]; apply H; [lia|]; split; [lia|]; apply HP; lia).
      assert (B : b <= y - 1 < e) by (apply HQ; [lia|]; apply H; [lia|]; split; [lia|]; apply HP; lia).
      assert (C : b < n' /\ P b) by (apply H; [lia|]; apply HQ; lia). destruct C as (C1 & C). apply HP in C; [|exact C1].
      assert (D : e - 1 < n' /\ P (e - 1)) by (apply H; [lia|]; apply HQ; lia). destruct D as (D1 & D). apply HP in D; [|exact D1]. lia.
  - split; [intros (E1 & E2); lia|]. intros ((i & Hi & Hq) & H). apply H in Hq; [|exact Hi]. destruct Hq as (Hi' & Hp). destruct (Hr i Hi' Hp).
Qed.

Section Check.
  Context (c : collection) (Hwf : wf_collection c) (Hpl : plain_terms c).
  Let n := length (comps c).
  Let strings := map (text c) (comps c).

  Lemma word_solid ids x : In ids (comps c) -> In x ids -> word c x <> [] /\ above (word c x).
  Proof using Hwf Hpl.
    intros Hi Hx. destruct (ids_range c Hwf ids x Hi Hx) as (_ & Hr & _). assert (Hin : In (word c x) (terms c)) by (apply nth_In; lia).
    split; [|unfold plain_terms in Hpl; rewrite Forall_forall in Hpl; now apply Hpl].
    destruct (wf_terms c Hwf) as (_ & _ & Hf). rewrite Forall_forall in Hf. destruct (Hf _ Hin) as [_ L]. destruct (word c x); [cbn in L; lia|discriminate].
  Qed.
  Lemma plain_no_spaces : no_spaces c.
  Proof using Hpl. unfold no_spaces, plain_terms in *. eapply Forall_impl; [|exact Hpl]. intros w H. eapply Forall_impl; [|exact H]. cbn. intros x Hx ->. lia. Qed.
  Lemma words_plain ids : In ids (comps c) -> Forall plain (words_of c ids).
  Proof using Hwf Hpl. intros H. apply Forall_forall. intros w Hw. apply in_map_iff in Hw as (x & <- & Hx). exact (word_plain c Hwf plain_no_spaces ids x H Hx). Qed.
  Lemma texts_sorted : lex_sorted strings.
  Proof using Hwf Hpl.
    apply (lex_sorted_map (fun x => x)); [|rewrite map_id; exact (proj1 (wf_comps c Hwf))]. intros a b Ha Hb H. unfold text, words_of. apply join_lt; [exact H| |].
    - apply Forall_forall. intros x Hx. exact (word_solid b x Hb Hx).
    - intros x y Hx Hy Hxy. destruct (ids_range c Hwf a x Ha Hx) as (_ & X & _), (ids_range c Hwf b y Hb Hy) as (_ & Y & _).
      apply (lex_sorted_nth (terms c)); [exact (proj1 (wf_terms c Hwf))|lia].
  Qed.
  Lemma texts_nul_free : Forall nul_free strings.
  Proof using Hwf Hpl.
    apply Forall_forall. intros s Hs. apply in_map_iff in Hs as (ids & <- & Hids). unfold text. pose proof (words_plain ids Hids) as Hw.
    assert (H : Forall nul_free (words_of c ids)).
    { apply Forall_forall. intros w H. apply in_map_iff in H as (x & <- & Hx). destruct (word_solid ids x Hids Hx) as (_ & H). eapply Forall_impl; [|exact H]. cbn. lia. }
    clear Hw. induction H as [|w ws H _ IH]; [constructor|]. destruct ws; [exact H|]. rewrite join_cons by discriminate. apply Forall_app. split; [exact H|]. constructor; [lia|exact IH].
  Qed.

  Section Query.
    Variables (q : list N) (ts : list (list N)) (last : list N).
    Hypothesis Hq : query_split q ts last.
    Lemma starts_match ids : In ids (comps c) -> is_prefix q (text c ids) -> prefix_match ts last (words_of c ids) /\ squeeze q = q.
    Proof using Hwf Hpl Hq.
      intros Hi Hp. assert (E : squeeze q = q) by (eapply squeeze_prefix; [exact Hp|]; apply squeeze_join, words_plain, Hi). split; [|exact E].
      apply (starts_iff c Hwf q ts last ids plain_no_spaces Hq Hi). rewrite E. exact Hp.
    Qed.
    Lemma match_starts ids : In ids (comps c) -> squeeze q = q -> prefix_match ts last (words_of c ids) -> is_prefix q (text c ids).
    Proof using Hwf Hpl Hq.
      intros Hi E Hm. apply (starts_iff c Hwf q ts last ids plain_no_spaces Hq Hi) in Hm. rewrite E in Hm. exact Hm.
    Qed.
  End Query.

  (** The number at place [k] of a completion whose words start with [ts]. *)
  Lemma number_at ids ts w rest prefix a b k : In ids (comps c) -> words_of c ids = ts ++ w :: rest -> length prefix = k -> k <= length ts ->
    continues prefix a b (terminated ids) -> exists x, nth_error ids k = Some x /\ (a <= x <= b)%N /\ 1 <= N.to_nat x <= length (terms c) /\
      forall t, nth_error ts k = Some t -> word c x = t.
  Proof using Hwf.
    intros Hi Ew Hl Hk (x & r & E & Hx). assert (Hlen : k < length ids).
    { apply (f_equal (@length _)) in Ew. unfold words_of in Ew. rewrite map_length, app_length in Ew. cbn [length] in Ew. lia. }
    exists x. assert (En : nth_error ids k = Some x).
    { rewrite <- (nth_error_app1 ids [0%N] Hlen). unfold terminated in E. rewrite E, nth_error_app2 by lia. now rewrite Hl, Nat.sub_diag. }
    split; [exact En|]. split; [exact Hx|]. split; [now apply (ids_range c Hwf ids x Hi), (nth_error_In ids k)|].
    intros t Ht. assert (E2 : nth_error (words_of c ids) k = Some t) by (rewrite Ew, nth_error_app1; [exact Ht|apply nth_error_Some; congruence]).
    unfold words_of in E2. rewrite nth_error_map, En in E2. now injection E2.
  Qed.
  Lemma ids_positions ts prefix : Forall2 (fun t x => exists i, x = N.of_nat (i + 1) /\ nth_error (stored (terms c)) i = Some t) ts prefix ->
    exists ids, prefix = map N.of_nat ids /\ positions (stored (terms c)) ts ids /\ Forall (known c) ts.
  Proof using.
    induction 1 as [|t x ts prefix (i & -> & Hi) _ (ids & -> & Hp & Hk)]; [exists []; repeat split; constructor|].
    exists ((i + 1) :: ids). split; [reflexivity|]. split; [now constructor|]. constructor; [exact (nth_error_In _ _ Hi)|exact Hk].
  Qed.
  Lemma terms_range last r : (last = [] -> r = Some (0, length (terms c) - 1)) ->
    (last <> [] -> match r with
        | Some (a, b) => exact_range (length (stored (terms c))) (fun i => found_by (nth 0 (terms c) []) last (nth i (terms c) [])) a b
        | None => forall i, i < length (stored (terms c)) -> ~ found_by (nth 0 (terms c) []) last (nth i (terms c) [])
        end) ->
    match r with
    | Some (a, b') => exact_range (length (terms c)) (fun i => found c last (nth i (terms c) [])) a b'
    | None => forall i, i < length (terms c) -> ~ found c last (nth i (terms c) [])
    end.
  Proof using Hwf.
    intros Hr0 Hr1. destruct last as [|x0 l0].
    - rewrite (Hr0 eq_refl). pose proof (terms_nonempty c Hwf). split; [lia|]. intros i Hi. split; [|lia]. intros _.
      split; [|now left]. split; [now exists (nth i (terms c) [])|]. intros _. now left.
    - specialize (Hr1 ltac:(discriminate)). pose proof (stored_le (terms c)) as Hle. destruct r as [[a b']|].
      + destruct Hr1 as [Hab Hex]. split; [lia|]. intros i Hi. unfold found. rewrite (known_nth c Hwf i Hi). split.
        * intros Hin. split; [apply Hex; lia|right; lia].
        * intros [Hf [Hn|Hn]]; [discriminate|]. now apply Hex.
      + intros i Hi [Hf [Hn|Hn]]; [discriminate|]. apply (known_nth c Hwf i Hi) in Hn. exact (Hr1 i Hn Hf).
  Qed.

  (** One query, for either index. *)
  Variable d : fcd.
  Hypothesis Ed : fc_build (terms c) = Ok d.
  Section Index.
    Context {St : Type} (find : list N -> N -> N -> St -> res (option (nat * nat) * St)) (I : St -> Prop).
    Variables (n' : nat) (P : list N -> N -> N -> nat -> Prop) (G : list (list N) -> list N -> list (list N) -> Prop).
    Hypothesis Hn' : n' <= n.
    Hypothesis Hfind : forall prefix a b s, Forall (fun x => (0 < x)%N) prefix -> (a <= b < 4294967296)%N -> I s ->
      exists r s', find prefix a b s = Ok (r, s') /\ I s' /\
        match r with Some (x, y) => exact_range_excl n' (P prefix a b) x y | None => forall i, i < n' -> ~ P prefix a b i end.
    Hypothesis HP : forall prefix a b i, i < n' -> (b < 4294967296)%N -> P prefix a b i -> continues prefix a b (terminated (nth i (comps c) [])).
    Hypothesis HG : forall ts last ws, G ts last ws -> prefix_by c (found c last) ts ws.
    Hypothesis HA : forall ts last prefix a b, positions (stored (terms c)) ts prefix -> Forall (known c) ts ->
      exact_range (length (terms c)) (fun i => found c last (nth i (terms c) [])) a b ->
      forall i, i < n -> (i < n' /\ P (map N.of_nat prefix) (N.of_nat (a + 1)) (N.of_nat (b + 1)) i <-> G ts last (words_of c (nth i (comps c) []))).

    Definition bufs_ok (s : (list N * list N * list N) * St) : Prop :=
      length (fst (fst (fst s))) = 256 /\ length (snd (fst (fst s))) = 256 /\ length (snd (fst s)) = 256 /\ I (snd s).
    Lemma check_query_ok q s : nul_free q -> bufs_ok s -> exists b s', check_query find d strings q s = Ok (b, s') /\ bufs_ok s' /\
      (b = true <-> occurs c q /\ forall ts last ids, query_split q ts last -> In ids (comps c) -> is_prefix q (text c ids) -> G ts last (words_of c ids)).
    Proof using Hwf Hpl Ed Hn' Hfind HP HG HA.
      intros Hnul Hs. destruct s as (((dec, dl), dr), s). destruct Hs as (B1 & B2 & B3 & B4). cbn [fst snd] in *. unfold check_query.
      destruct (range_ref strings q texts_sorted texts_nul_free Hnul) as (rb & re & Er & Hre & Hrng). rewrite Er. cbn [bind].
      destruct (parse_left_ok (terms c) (wf_terms c Hwf) d Ed q dec B1) as (prefix & suffix & dec' & Ep & B1' & ts & last & k & Hq & Hpre & Hsuf). rewrite Ep. cbn [bind].
      destruct (fc_locate_prefix_any (terms c) (wf_terms c Hwf)) as (d' & Ed' & L). rewrite Ed in Ed'. injection Ed' as <-.
      destruct (L suffix dl dr B2 B3) as (r & dl' & dr' & El & B2' & B3' & R1 & R2). rewrite El. cbn [bind].
      pose proof (terms_range suffix r R1 R2) as Hr. destruct (wf_few c Hwf) as (Hfew & Hfewt).
      set (a := plus_one (fst (bounds_of r))). set (b := plus_one (snd (bounds_of r))).
      assert (Hab : (r = None /\ a = 0 /\ b = 0)%N \/ exists x y, r = Some (x, y) /\ a = N.of_nat (x + 1) /\ b = N.of_nat (y + 1) /\ x <= y < length (terms c)).
      { destruct r as [(x, y)|]; [right|left; repeat split; reflexivity]. exists x, y. destruct Hr as (Hxy & _). split; [reflexivity|]. subst a b. unfold plus_one, bounds_of. cbn [fst snd].
        rewrite !N.mod_small by lia. repeat split; lia. }
      assert (Hpos : Forall (fun x => (0 < x)%N) prefix).
      { clear -Hpre. induction Hpre as [|t x l1 l2 (i & -> & _) _ IH]; constructor; [lia|exact IH]. }
      destruct (Hfind prefix a b s Hpos) as (got & s' & Eg & B4' & Hgot); [|exact B4|].
      { destruct Hab as [(_ & -> & ->)|(x & y & _ & -> & -> & Hxy)]; lia. }
      rewrite Eg. cbn [bind]. eexists _, _. split; [reflexivity|]. split; [repeat split; assumption|].
      assert (Hb32 : (b < 4294967296)%N) by (destruct Hab as [(_ & _ & ->)|(x & y & _ & _ & -> & Hxy)]; lia).
      unfold strings in Hre, Hrng. rewrite map_length in Hre. fold n in Hre.
      rewrite (same_range n n' (P prefix a b) (fun i => is_prefix q (text c (nth i (comps c) []))) got rb re); [|unfold n; lia|exact Hn'|exact Hre| |exact Hgot].
      2:{ intros i Hi. apply Hrng. rewrite nth_error_map. now rewrite (nth_error_nth' (comps c) [] Hi). }
      assert (Hocc : (exists i, i < n /\ is_prefix q (text c (nth i (comps c) []))) <-> occurs c q).
      { split; [intros (i & Hi & H); exists (nth i (comps c) []); split; [now apply nth_In|exact H]|]. intros (ids & Hi & H). apply (In_nth _ _ []) in Hi as (i & Hi & <-). eauto. }
      rewrite Hocc. destruct (squeeze_split q ts last Hq) as (_ & Hplain & _).
      assert (Hu : forall ts' last', query_split q ts' last' -> ts' = ts /\ last' = last) by (intros ts' last' H; exact (query_split_det q ts' last' ts last H Hq)).
      pose proof (Forall2_len _ _ _ Hpre) as Hlen.
      assert (Hcase : (Forall (known c) ts /\ suffix = last /\ exists x y, r = Some (x, y)) \/
        forall i, i < n -> is_prefix q (text c (nth i (comps c) [])) -> ~ (i < n' /\ P prefix a b i) /\ ~ G ts last (words_of c (nth i (comps c) []))).
      { destruct Hsuf as [(Hk & Es)|(Hk & Hun)].
        - rewrite Hk, firstn_all in Hpre. destruct (ids_positions ts prefix Hpre) as (pos & _ & _ & Hall). destruct Hab as [(Er0 & Ea & Eb)|(x & y & Er0 & _)]; [right|left; eauto].
          intros i Hi Hp. assert (Hin : In (nth i (comps c) []) (comps c)) by now apply nth_In. split.
          + intros (Hi' & HPi). apply HP in HPi; [|exact Hi'|exact Hb32]. destruct (starts_match q ts last Hq _ Hin Hp) as ((w & rest & Ew & _) & _).
            destruct (number_at _ ts w rest prefix a b (length ts) Hin Ew) as (x & _ & Hx & Hx1 & _); [rewrite <- Hlen, Hk, firstn_all; reflexivity|lia|exact HPi|lia].
          + intros HGi. apply HG in HGi. destruct (prefix_match_known c Hwf ts (found c last) _ Hin HGi) as (_ & j & Hj & Hf). rewrite Er0 in Hr. subst suffix. exact (Hr j Hj Hf).
        - right. assert (Hkl : k < length ts) by (apply nth_error_Some; congruence). rewrite firstn_length_le in Hlen by lia.
          intros i Hi Hp. assert (Hin : In (nth i (comps c) []) (comps c)) by now apply nth_In. split.
          + intros (Hi' & HPi). apply HP in HPi; [|exact Hi'|exact Hb32]. destruct (starts_match q ts last Hq _ Hin Hp) as ((w & rest & Ew & _) & _).
            destruct (number_at _ ts w rest prefix a b k Hin Ew) as (x & _ & Hx & Hx1 & Hw); [now symmetry|lia|exact HPi|]. specialize (Hw suffix Hk).
            destruct Hab as [(_ & Ea & Eb)|(x1 & y1 & Er0 & Ea & Eb & Hxy)]; [lia|]. rewrite Er0 in Hr. destruct Hr as (_ & Hr).
            assert (Hs0 : suffix <> []) by (rewrite Forall_forall in Hplain; exact (proj1 (Hplain suffix (nth_error_In _ _ Hk)))).
            assert (Hf : found c suffix (word c x)) by (unfold word; apply Hr; lia). destruct Hf as (_ & [Hf|Hf]); [contradiction|]. apply Hun. rewrite <- Hw. exact Hf.
          + intros HGi. apply HG in HGi. destruct HGi as (Hall & _). rewrite Forall_forall in Hall. apply Hun. exact (Hall suffix (nth_error_In _ _ Hk)). }
      destruct Hcase as [(Hall & Es & x & y & Er0)|Hno].
      - destruct Hab as [(Er1 & _)|(x1 & y1 & Er1 & Ea & Eb & Hxy)]; [congruence|]. rewrite Er0 in Er1. injection Er1 as <- <-. subst suffix.
        assert (Hpre' : exists ids, prefix = map N.of_nat ids /\ positions (stored (terms c)) ts ids).
        { destruct Hsuf as [(-> & _)|(Hk & Hun)].
          - rewrite firstn_all in Hpre. destruct (ids_positions ts prefix Hpre) as (pos & E1 & E2 & _). eauto.
          - exfalso. apply Hun. rewrite Forall_forall in Hall. exact (Hall last (nth_error_In _ _ Hk)). }
        destruct Hpre' as (pos & Epre & Hpp). rewrite Er0 in Hr. pose proof (HA ts last pos x y Hpp Hall Hr) as HAi. rewrite <- Epre, <- Ea, <- Eb in HAi.
        split; intros (H1 & H2); split; try exact H1.
        + intros ts' last' ids Hq' Hi Hp. destruct (Hu ts' last' Hq') as (-> & ->). apply (In_nth _ _ []) in Hi as (i & Hi & <-). apply HAi; [exact Hi|]. apply H2; assumption.
        + intros i Hi. rewrite (HAi i Hi). split; [intros Hp; apply H2; [exact Hq|now apply nth_In|exact Hp]|]. intros HGi. destruct H1 as (ids & Hids & Hp).
          destruct (starts_match q ts last Hq ids Hids Hp) as (_ & Esq). apply (match_starts q ts last Hq); [now apply nth_In|exact Esq|]. exact (by_match c ts last _ (HG _ _ _ HGi)).
      - split; intros (H1 & H2); exfalso; pose proof H1 as (ids & Hids & Hp); pose proof Hids as Hids'; apply (In_nth _ _ []) in Hids as (i & Hi & E); rewrite <- E in Hp, Hids'; destruct (Hno i Hi Hp) as (N1 & N2).
        + apply N1. apply H2; assumption.
        + apply N2. apply H2; assumption.
    Qed.
    Lemma check_queries_ok qs s : Forall nul_free qs -> bufs_ok s -> exists b s', check_queries find d strings qs s = Ok (b, s') /\ bufs_ok s' /\
      (b = true <-> Forall (fun q => occurs c q /\ forall ts last ids, query_split q ts last -> In ids (comps c) -> is_prefix q (text c ids) -> G ts last (words_of c ids)) qs).
    Proof using Hwf Hpl Ed Hn' Hfind HP HG HA.
      intros Hqs Hs. unfold check_queries. rewrite Forall_forall in Hqs.
      match goal with |- exists b s', bind (each ?f _ _) _ = _ /\ _ /\ (_ <-> Forall ?R _) => destruct (each_ok f bufs_ok (fun q b => b = true <-> R q) qs) with (s := s) as (bs & s' & -> & Hs' & Hbs) end; [|exact Hs|].
      - intros q s0 Hin Hs0. exact (check_query_ok q s0 (Hqs q Hin) Hs0).
      - cbn [bind]. eexists _, s'. split; [reflexivity|]. split; [exact Hs'|]. clear -Hbs. induction Hbs as [|q b qs bs H _ IH]; [split; constructor|]. cbn [forallb].
        rewrite andb_true_iff, H, IH. split; [intros (H1 & H2); now constructor|]. intros H0. inversion H0; auto.
    Qed.
  End Index.
End Check.

(** ** The two indexes *)
Section Indexes.
  Context (c : collection) (Hwf : wf_collection c) (Hpl : plain_terms c).
  Let strings := map (text c) (comps c).
  Variable d : fcd.
  Hypothesis Ed : fc_build (terms c) = Ok d.
  Variables (ta : trie_arrays) (x : trie) (y : fcd).
  Hypothesis Et : trie_build (num_levels (comps c)) (records (docs c) (comps c)) = Ok ta.
  Hypothesis Hx : trie_holds ta x.
  Hypothesis Ey : ifc_build (map terminated (comps c)) = Ok y.

  Lemma terminated_continues prefix a b ids : (0 < a)%N -> continues prefix a b (terminated ids) <-> continues prefix a b ids.
  Proof using.
    intros Ha. split; intros (z & rest & E & Hz).
    - unfold terminated in E. destruct rest as [|u rest].
      + apply app_inj_tail in E. destruct E as (_ & <-). lia.
      + destruct (exists_last (l := u :: rest)) as (l & v & El); [discriminate|]. rewrite El in E. rewrite (app_comm_cons l [v] z), app_assoc in E. apply app_inj_tail in E. destruct E as (-> & _). now exists z, l.
    - exists z, (rest ++ [0%N]). split; [|exact Hz]. unfold terminated. now rewrite E, <- app_assoc.
  Qed.
  Definition trie_P (prefix : list N) (a b : N) (i : nat) : Prop := continues prefix a b (terminated (nth i (comps c) [])).
  Definition dict_P (prefix : list N) (a b : N) (i : nat) : Prop := continues_found (nth 0 (comps c) []) prefix a b (nth i (comps c) []).

  Lemma trie_queries qs s : Forall nul_free qs -> bufs_ok (fun _ : unit => True) s -> exists b s', check_queries (find_trie x) d strings qs s = Ok (b, s') /\ bufs_ok (fun _ => True) s' /\
    (b = true <-> Forall (fun q => occurs c q /\ forall ts last ids, query_split q ts last -> In ids (comps c) -> is_prefix q (text c ids) -> prefix_by c (found c last) ts (words_of c ids)) qs).
  Proof using Hwf Hpl Ed Et Hx.
    apply (check_queries_ok c Hwf Hpl d Ed (find_trie x) (fun _ => True) (length (comps c)) trie_P (fun ts last => prefix_by c (found c last) ts)); auto.
    - intros prefix a b u Hp (Hab & _) _. unfold find_trie. destruct (trie_found (comps c) (docs c) ta (wf_comps c Hwf) (wf_docs_len c Hwf) Et x Hx prefix a b Hp Hab) as (r & -> & Hr). cbn [bind].
      exists r, u. split; [reflexivity|]. split; [exact I|exact Hr].
    - intros ts last prefix a b Hp Hall Hr i Hi. unfold trie_P. rewrite terminated_continues by lia.
      rewrite (prefix_match_ids c Hwf ts (found c last) (nth i (comps c) []) prefix a b (nth_In _ _ Hi) Hp Hall Hr). tauto.
  Qed.
  Lemma stored_index i : i < length (comps c) -> In (nth i (comps c) []) (stored (comps c)) <-> i < length (stored (comps c)).
  Proof using Hwf.
    intros Hi. split; intros H.
    - apply In_nth_error in H as (j & Hj). assert (Hjl : j < length (stored (comps c))) by (apply nth_error_Some; congruence). apply stored_nth_error in Hj.
      assert (Hjn : j < length (comps c)) by (apply nth_error_Some; congruence).
      replace i with j; [exact Hjl|]. apply (proj1 (NoDup_nth_error (comps c)) (lex_sorted_NoDup _ (proj1 (wf_comps c Hwf)))); [exact Hjn|]. rewrite Hj. symmetry. now apply nth_error_nth'.
    - eapply nth_error_In. apply stored_nth_error_lt; [now apply nth_error_nth'|exact H].
  Qed.
  Lemma dict_queries qs s : Forall nul_free qs -> bufs_ok I128 s -> exists b s', check_queries (find_dict y) d strings qs s = Ok (b, s') /\ bufs_ok I128 s' /\
    (b = true <-> Forall (fun q => occurs c q /\ forall ts last ids, query_split q ts last -> In ids (comps c) -> is_prefix q (text c ids) -> prefix_found c ts last (words_of c ids)) qs).
  Proof using Hwf Hpl Ed Ey.
    apply (check_queries_ok c Hwf Hpl d Ed (find_dict y) I128 (length (stored (comps c))) dict_P (prefix_found c)).
    - apply stored_le.
    - intros prefix a b s0 Hp (Hab & Hb) Hs0. unfold find_dict.
      destruct (ifc_one (comps c) (wf_comps c Hwf) y Ey (prefix, (a, b)) s0) as (r & dl & dr & E & HI & Hr); [split; cbn [fst snd]; [exact Hab|right; exact Hb]|exact Hs0|].
      cbn [fst snd] in E, Hr. rewrite E. cbn [bind]. exists r, (dl, dr). split; [reflexivity|]. split; [exact HI|]. unfold found_in_dict in Hr. rewrite !N.mod_small in Hr by lia. exact Hr.
    - intros prefix a b i Hi Hb (H & _). destruct H as (z & rest & -> & Hz). exists z, (rest ++ [0%N]). split; [|exact Hz]. unfold terminated. now rewrite <- app_assoc.
    - now intros ts last ws (H & _).
    - intros ts last prefix a b Hp Hall Hr i Hi. pose proof (nth_In (comps c) [] Hi) as Hin. rewrite <- (stored_index i Hi). split.
      + intros (Hst & HP). apply (prefix_found_ids c Hwf (S (query_fuel c)) (Nat.lt_succ_diag_r _) ts last prefix a b _ Hp Hall Hr Hin Hst). exact HP.
      + intros Hf. assert (Hst : In (nth i (comps c) []) (stored (comps c))).
        { destruct Hf as (_ & (ids & Hs & Ew) & _). assert (Hids : In ids (comps c)) by (apply In_nth_error in Hs as (j & Hj); apply stored_nth_error in Hj; exact (nth_error_In _ _ Hj)).
          rewrite (words_inj c Hwf (nth i (comps c) []) ids); [exact Hs| | |exact Ew]; apply Forall_forall; intros z Hz; [apply (ids_range c Hwf _ z Hin Hz)|apply (ids_range c Hwf _ z Hids Hz)]. }
        split; [exact Hst|]. now apply (prefix_found_ids c Hwf (S (query_fuel c)) (Nat.lt_succ_diag_r _) ts last prefix a b _ Hp Hall Hr Hin Hst).
  Qed.

  Lemma shortened_nul m e q s : shortened m e q s -> nul_free q -> nul_free s.
  Proof using.
    intros (body & last & ts & j & -> & _ & _ & -> & _) H. apply Forall_app in H as (H1 & H2). apply Forall_app. split; [exact H1|]. rewrite <- (firstn_skipn j last) in H2. now apply Forall_app in H2.
  Qed.
  Lemma rounds_ok max lines files rounds : query_files max lines files -> Forall (fun r => (fst (fst r) <= 2 ^ snd (fst r))%N) rounds ->
    forall s, bufs_ok I128 s -> exists b strs, check_rounds max files d strings x y rounds s = Ok b /\
      Forall2 (round_queries max lines) (rounds_before (has_file lines) rounds) strs /\ (b = true <-> Forall (Forall (fun q => occurs c q /\ all_found c q)) strs).
  Proof using Hwf Hpl Ed Et Hx Ey.
    intros Hfiles. induction 1 as [|((m, e), k) rounds Hm _ IH]; intros s Hs; [exists true, []; repeat split; constructor|]. cbn [check_rounds rounds_before fst snd] in *.
    unfold has_file at 1. cbn [snd]. specialize (Hfiles k) as Hf. destruct (lines k) as [ls|] eqn:El, (files k) as [file|] eqn:Ef; try destruct Hf; [|exists true, []; repeat split; constructor].
    destruct (load_queries_ok m e max file ls Hm H) as (qs & -> & Hqs); [eapply Forall_impl; [|exact H0]; intros q (A & B & _); auto|]. cbn [bind].
    assert (Hnul : Forall nul_free qs).
    { apply Forall_forall. intros q Hq. destruct (Forall2_In_r _ _ _ _ Hqs Hq) as (q0 & Hin & Hsh). rewrite Forall_forall in H0. eapply shortened_nul; [exact Hsh|]. apply (H0 q0 Hin). }
    destruct s as (ds, is). destruct Hs as (S1 & S2 & S3 & S4). cbn [fst snd] in *.
    destruct (trie_queries qs (ds, tt) Hnul) as (b1 & s1 & -> & (T1 & T2 & T3 & _) & H1); [repeat split; assumption|]. cbn [bind].
    destruct (dict_queries qs (fst s1, is) Hnul) as (b2 & s2 & -> & Hs2 & H2); [repeat split; try assumption; apply S4|]. cbn [bind].
    destruct (IH s2 Hs2) as (b & strs & -> & Hst & Hb). cbn [bind]. eexists _, (qs :: strs). split; [reflexivity|]. split.
    - constructor; [|exact Hst]. exists ls. cbn [fst snd]. auto.
    - rewrite !andb_true_iff, H1, H2, Hb. split.
      + intros ((A1 & A2) & A3). constructor; [exact A2|exact A3].
      + intros A. inversion A as [|? ? A2 A3]; subst. split; [|exact A3]. split; [|exact A2]. eapply Forall_impl; [|exact A2]. cbn. intros q (O & F). split; [exact O|].
        intros ts last ids Q1 Q2 Q3. exact (proj1 (F ts last ids Q1 Q2 Q3)).
  Qed.
End Indexes.

(** ** The program *)
Lemma after_space_ok s t : no_space s -> after_space (s ++ 32%N :: t) = t.
Proof.
  intros H. unfold after_space. generalize (s ++ 32%N :: t) at 1. intros line. induction H as [|z s Hz _ IH]; [reflexivity|]. cbn [app]. destruct (N.eqb_spec z 32); [contradiction|exact IH].
Qed.
Lemma fold_after ls : forall acc, fold_lines (fun line l => Ok (l ++ [after_space line])) ls acc = Ok (acc ++ map after_space ls).
Proof. induction ls as [|q qs IH]; intros acc; cbn [fold_lines bind map]; [now rewrite app_nil_r|]. rewrite IH, <- app_assoc. reflexivity. Qed.

Section Program.
  Context (c : collection) (Hwf : wf_collection c) (Hpl : plain_terms c) (t : M_Input.texts) (Ht : holds_collection c t).
  Lemma test_prefix_ok sort fuel junk input lines files : sorts_by_size ce_ops sort -> length (t_mapped t) < fuel -> collection_file c input -> query_files max_num_queries lines files ->
    exists b strs, test_prefix fuel junk t input files = Ok b /\ Forall2 (round_queries max_num_queries lines) (rounds_before (has_file lines) prefix_rounds) strs /\
      (b = true <-> Forall (Forall (fun q => occurs c q /\ all_found c q)) strs).
  Proof using Hwf Hpl Ht.
    intros Hsort Hf (ls & Hls & Hin) Hfiles. unfold test_prefix. destruct (load_full c Hwf t Ht) as (p & -> & Ept & Ec & Eu & El). cbn [bind]. rewrite Ept, Ec, Eu, El, !Nat2N.id.
    destruct (read_words_ok (terms c) (open_file (t_dict t)) [] (before_open _ _ (hc_dict _ _ Ht))) as (st & Er & _). rewrite Er. cbn [snd].
    destruct (fc_locate_any (terms c) (wf_terms c Hwf)) as (d & Ed & _). rewrite Ed. cbn [bind].
    rewrite (each_line_ok _ (length (comps c)) ls input _ _ Hls), fold_after. cbn [bind app].
    assert (Es : map after_space (firstn (length (comps c)) ls) = map (text c) (comps c)).
    { rewrite <- (Forall2_len _ _ _ Hin), firstn_all. clear -Hin. induction Hin as [|l ids ls cs (s & Hs & ->) _ IH]; [reflexivity|]. cbn [map]. rewrite after_space_ok by exact Hs. now rewrite IH. }
    rewrite Es. destruct (read_mapped_ok _ fuel junk _ (coll_records_valid c Hwf) (hc_mapped _ _ Ht) Hf) as (e & -> & _). cbn [bind].
    replace (map (fun r => (N.to_nat (fst r), snd r)) (map terminate (combine (map N.of_nat (docs c)) (comps c)))) with (S_Trie.records (docs c) (comps c)) by (symmetry; now apply coll_records).
    destruct (trie_spec (comps c) (docs c) (wf_comps c Hwf) (wf_docs_len c Hwf)) as (ta & Et & _ & Hmono & _).
    assert (Hfit : trie_fits ta).
    { pose proof Et as Et'. rewrite (trie_build_eq (comps c) (wf_comps c Hwf) (docs c) (wf_docs_len c Hwf)) in Et'. injection Et' as <-.
      apply trie_fits_ok; [apply (wf_comps c Hwf)|]. pose proof (P_Collection.n_le_universe c Hwf). pose proof (wf_universe c Hwf). lia. }
    destruct (trie_store_ok _ (real_containers_ok 0 sorting_heap sort eq_refl sorting_heap_ok Hsort) ta Hmono Hfit) as (x & Ex & Hx).
    rewrite (trie_view 0 sorting_heap sort (length (comps c))) in Ex. rewrite Et. cbn [bind].
    destruct (trie_store_d (length (comps c)) ta) as [xd| | |] eqn:Exd; try discriminate Ex. cbn [bind] in *. injection Ex as <-.
    assert (Esz : td_size xd = length (comps c)).
    { unfold trie_store_d in Exd. repeat match type of Exd with bind ?e _ = _ => destruct e; try discriminate Exd; cbn [bind] in Exd end. now injection Exd as <-. }
    rewrite Esz, N.eqb_refl. destruct (read_comps c Hwf t Ht fuel junk Hf) as (e' & ->). cbn [bind]. rewrite (recs_comps c Hwf), (recs_docs c Hwf).
    destruct (ifc_build_layout (comps c) (wf_comps c Hwf)) as (y & Ey & Ly). rewrite Ey. cbn [bind].
    destruct (docid_to_lexid_any (universe c) (docs c)) as (l & -> & _); [apply (wf_docs_nodup c Hwf)|apply Forall_forall, (wf_docs_lt c Hwf)|]. cbn [bind].
    rewrite (lay_size _ _ _ _ Ly), N.eqb_refl. apply (rounds_ok c Hwf Hpl d Ed ta (trie_of xd) y Et Hx Ey max_num_queries lines files prefix_rounds Hfiles).
    - unfold prefix_rounds. cbn [list_prod map app]. repeat (apply Forall_cons; [cbn; lia|]). constructor.
    - unfold bufs_ok, I128. cbn [fst snd]. rewrite !repeat_length. auto.
  Qed.
End Program.
