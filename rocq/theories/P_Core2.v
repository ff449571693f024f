(** The parts that the indexes of types 2, 3 and 4 have in common. *)
From Coq Require Import Sorted Permutation.
From Verif Require Import Base S_Order P_Order S_Vocab S_Completions M_Fc P_Fc M_IntFc P_IntFc P_Kept S_Parse M_Parse P_Parse P_ParseFc.
From Verif Require Import M_Heap S_Heap M_Iter S_Iter M_TopK S_TopK P_TopK P_TopKDistinct P_Limit M_Intersect S_Intersect P_Intersect.
From Verif Require Import M_Find S_Search M_Trie S_Trie M_Containers S_Containers P_Containers.
From Verif Require Import M_Auto S_Collection S_Found P_Collection S_Index P_Pool M_Auto1 P_Query M_Auto2 S_Index2 S_Build.
Local Open Scope nat_scope.

(** ** util::invert *)
Lemma invert_from_ok size : forall m off v, length v = size ->
  (forall i j lex, nth_error m i = Some (Some lex) -> nth_error m j = Some (Some lex) -> i = j) ->
  exists v', invert_from m off size v = Ok v' /\ length v' = size /\
    forall lex, lex < size ->
      (forall i, nth_error m i = Some (Some lex) -> nth_error v' lex = Some (off + i)) /\
      ((forall i, nth_error m i <> Some (Some lex)) -> nth_error v' lex = nth_error v lex).
Proof.
  induction m as [|o m IH]; intros off v Hl Hinj.
  - exists v. split; [reflexivity|]. split; [exact Hl|]. intros lex _. split; [intros [|i]; discriminate|reflexivity].
  - cbn [invert_from].
    assert (Hinj' : forall i j lex, nth_error m i = Some (Some lex) -> nth_error m j = Some (Some lex) -> i = j).
    { intros i j lex H1 H2. specialize (Hinj (S i) (S j) lex H1 H2). lia. }
    assert (Hstep : exists v1, (match o with Some lex => if lex <? size then set v lex off else Ok v | None => Ok v end) = Ok v1 /\
      length v1 = size /\ forall lex, lex < size -> nth_error v1 lex = (if match o with Some l => l =? lex | None => false end then Some off else nth_error v lex)).
    { destruct o as [lex|].
      - destruct (Nat.ltb_spec lex size) as [H|H].
        + rewrite set_ok by lia. exists (upd v lex off). rewrite upd_length. split; [reflexivity|]. split; [exact Hl|].
          intros l' Hl'. destruct (Nat.eqb_spec lex l') as [->|Hne]; [apply upd_same; lia|apply upd_other; exact Hne].
        + exists v. split; [reflexivity|]. split; [exact Hl|]. intros l' Hl'. destruct (Nat.eqb_spec lex l'); [lia|reflexivity].
      - exists v. auto. }
    destruct Hstep as (v1 & E1 & L1 & H1). rewrite E1. cbn [bind].
    destruct (IH (off + 1) v1 L1 Hinj') as (v' & E & L & H). exists v'. split; [exact E|]. split; [exact L|].
    intros lex Hlex. destruct (H lex Hlex) as [Ha Hb]. split.
    + intros [|i] Hi; cbn in Hi.
      * injection Hi as ->. rewrite Hb; [rewrite H1, Nat.eqb_refl by exact Hlex; f_equal; lia|].
        intros i Hi. specialize (Hinj 0 (S i) lex eq_refl Hi). lia.
      * rewrite (Ha i Hi). f_equal. lia.
    + intros Hn. rewrite Hb by (intros i Hi; exact (Hn (S i) Hi)). rewrite H1 by exact Hlex.
      destruct o as [l'|]; [|reflexivity]. destruct (Nat.eqb_spec l' lex) as [->|]; [|reflexivity]. exfalso. exact (Hn 0 eq_refl).
Qed.

Lemma invert_kept m ds size : length ds <= size -> (forall doc i, nth_error m doc = Some (Some i) <-> nth_error ds i = Some doc) ->
  invert m size = Ok (ds ++ repeat 0 (size - length ds)).
Proof.
  intros Hle Hm. unfold invert.
  destruct (invert_from_ok size m 0 (repeat 0 size) (repeat_length _ _)) as (v & E & L & H).
  { intros i j lex Hi Hj. apply Hm in Hi, Hj. congruence. }
  rewrite E. f_equal. apply nth_error_ext. intros i. destruct (Nat.lt_ge_cases i (length ds)) as [Hi|Hi].
  - rewrite nth_error_app1 by exact Hi. destruct (nth_error ds i) as [d|] eqn:Ed; [|apply nth_error_None in Ed; lia].
    destruct (H i ltac:(lia)) as [Ha _]. apply Hm in Ed. now rewrite (Ha d Ed).
  - rewrite nth_error_app2 by exact Hi. destruct (Nat.lt_ge_cases i size) as [Hs|Hs].
    + destruct (H i Hs) as [_ Hb]. rewrite Hb, !nth_error_repeat by lia || (intros j Hj; apply Hm in Hj; assert (i < length ds) by (apply nth_error_Some; congruence); lia).
      reflexivity.
    + transitivity (@None nat); [apply nth_error_None; lia|symmetry; apply nth_error_None; rewrite repeat_length; lia].
Qed.

(** ** Streams of documents containing given terms *)
Lemma conj_stream_ok K (HK : containers_ok K) c (Hwf : wf_collection c) ops at_ inverted fuel prefix :
  cursor ops (universe c) at_ -> opens at_ inverted (postings c) -> sorts_by_size ops (k_sort K) ->
  query_fuel c < fuel -> prefix <> [] -> Forall (fun i => 1 <= i <= length (terms c)) prefix ->
  match deduplicate prefix with
  | [] => False
  | [t] => exists t' it, t = S t' /\ inverted t' = Ok it /\ yields (iter_stream ops) it (all_of c prefix)
  | ids => exists it, intersection ops (universe c) inverted (k_sort K) fuel ids = Ok it /\
             yields (inter_stream ops (universe c) fuel) it (all_of c prefix)
  end.
Proof.
  intros Hcur Hop Hsort Hfuel Hne Hran. destruct (dedup_facts c prefix Hne Hran) as (Dne & Dran & Din & Dlen).
  assert (Eall : all_of c (deduplicate prefix) = all_of c prefix).
  { apply sorted_ext; try (apply filter_increasing, seq_increasing). intros d.
    rewrite !in_all_of by assumption. split; intros (w & Hw & H); exists w; (split; [exact Hw|]); intros t Ht; apply H; now apply Din. }
  destruct (deduplicate prefix) as [|t [|t2 ids]] eqn:Ed; [congruence| |].
  - inversion Dran as [|? ? Ht _]; subst. destruct t as [|t]; [lia|].
    destruct (single_list_ok ops (universe c) at_ inverted (postings c) t (posting_list c (S t)) Hcur Hop) as (it & Eit & Hy).
    { rewrite <- (postings_nth c (S t)) by lia. f_equal. lia. }
    exists t, it. split; [reflexivity|]. split; [exact Eit|]. rewrite <- Eall, (all_of_single c Hwf). exact Hy.
  - rewrite <- Ed in *.
    destruct (intersection_ok ops (universe c) at_ inverted (postings c) (k_sort K)
                (deduplicate prefix) (map (posting_list c) (deduplicate prefix)) fuel (all_of c (deduplicate prefix)) Hcur Hop Hsort Dne) as (it & Eit & Hy).
    { clear -Dran. induction Dran as [|t l Ht H IH]; cbn [map]; constructor; [|exact IH]. split; [lia|]. apply postings_nth. exact Ht. }
    { unfold query_fuel in Hfuel. nia. }
    { apply all_of_common; assumption. }
    exists it. split; [exact Eit|]. rewrite <- Eall. exact Hy.
Qed.

Section Core2.
  Variable K : containers.
  Hypothesis HK : containers_ok K.
  Variable c : collection.
  Hypothesis Hwf : wf_collection c.

  (** The list of doc ids by position, as the program computes it. *)
  Definition kept_docs : list nat := stored (docs c) ++ repeat 0 (length (docs c) - length (stored (docs c))).

  Record core_ok (x : core) : Prop := {
    c2_comps : ifc_build (map terminated (comps c)) = Ok (co_comps x);
    c2_docs : ulist_holds kept_docs (co_docs x);
    c2_dict : fc_build (terms c) = Ok (co_dict x);
    c2_lexid : forall i d, nth_error (stored (docs c)) i = Some d -> co_lexid x d = Ok (N.of_nat i);
    c2_lost : forall d, In d (docs c) -> ~ In d (stored (docs c)) -> exists v, co_lexid x d = Ok v /\ (N.of_nat (length (docs c)) <= v)%N
  }.

  Lemma core_build_ok : some_kept_doc_positive c -> exists x, core_build K (files_of c) = Ok x /\ core_ok x.
  Proof.
    intros Hpos. unfold core_build, files_of. cbn [f_dict f_mapped f_levels f_universe].
    pose proof (wf_docs_len c Hwf) as Hdl.
    assert (E1 : map snd (records (docs c) (comps c)) = map terminated (comps c)).
    { unfold records. clear -Hdl. revert Hdl. generalize (comps c), (docs c). intros cs. induction cs as [|a cs IH]; intros [|d ds] H; try discriminate; [reflexivity|].
      cbn in *. f_equal. apply IH. congruence. }
    assert (E2 : map fst (records (docs c) (comps c)) = docs c).
    { unfold records. clear -Hdl. revert Hdl. generalize (comps c), (docs c). intros cs. induction cs as [|a cs IH]; intros [|d ds] H; try discriminate; [reflexivity|].
      cbn in *. f_equal. apply IH. congruence. }
    assert (E3 : length (records (docs c) (comps c)) = length (docs c)) by (rewrite <- E2 at 2; now rewrite map_length).
    rewrite E1, E2, E3. destruct (ifc_build_layout (comps c) (wf_comps c Hwf)) as (cm & Ecm & _). rewrite Ecm. cbn [bind].
    destruct (docid_to_lexid_any (universe c) (docs c) (wf_docs_nodup c Hwf) (proj1 (Forall_forall _ _) (wf_docs_lt c Hwf))) as (m & Em & Lm & Hm).
    rewrite Em. cbn [bind].
    destruct (fc_extract_any (terms c) (wf_terms c Hwf)) as (d & Ed & _). rewrite Ed. cbn [bind].
    pose proof (stored_le (docs c)) as Hk.
    pose proof (comps_nonempty c Hwf) as Hcne. pose proof (n_le_universe c Hwf) as Hnu. pose proof (wf_universe c Hwf) as Hu.
    destruct (width_ok (N.of_nat (length (docs c)))) as [W1 W2]; [lia|].
    destruct (ok_vec K HK (ceil_log2 (N.of_nat (length (docs c)) + 1)) (map lexid_word m)) as (acc & Ea & Ha); [lia| |].
    { apply Forall_map. apply Forall_forall. intros [i|] Ho; cbn [lexid_word]; [|lia].
      apply In_nth_error in Ho. destruct Ho as [dd Ho]. apply Hm in Ho. assert (i < length (stored (docs c))) by (apply nth_error_Some; congruence). lia. }
    rewrite Ea. cbn [bind]. rewrite (invert_kept m _ (length (docs c)) Hk Hm). cbn [bind]. fold kept_docs.
    destruct (ulist_build_ok K HK kept_docs) as (ul & Eu & Hul).
    { replace (length kept_docs) with (length (docs c)) by (unfold kept_docs; rewrite app_length, repeat_length; lia). now apply docs_few. }
    { apply Forall_app. split; [|apply Forall_forall; intros z Hz; apply repeat_spec in Hz; subst z; reflexivity].
      apply stored_Forall. eapply Forall_impl; [|apply (wf_docs_lt c Hwf)]. cbn. intros d' Hd'. lia. }
    { destruct Hpos as (z & Hz & Hp). exists z. split; [|exact Hp]. apply in_or_app. now left. }
    rewrite Eu. cbn [bind]. eexists. split; [reflexivity|]. constructor; cbn [co_comps co_docs co_dict co_lexid]; auto.
    2:{ intros dd Hin Hlost. pose proof (proj1 (Forall_forall _ _) (wf_docs_lt c Hwf) dd Hin) as Hlt. cbn in Hlt. rewrite <- Lm in Hlt.
        rewrite (Ha dd ltac:(rewrite map_length; exact Hlt)). eexists. split; [reflexivity|].
        destruct (nth_error m dd) as [[i|]|] eqn:Eo; [exfalso; apply Hm in Eo; apply Hlost; eapply nth_error_In; eauto| |apply nth_error_None in Eo; lia].
        assert (En : nth_error (map lexid_word m) dd = Some 4294967295%N) by (rewrite nth_error_map, Eo; reflexivity).
        rewrite (nth_error_nth _ _ 0%N En). apply width_none. lia. }
    intros i dd Hi. pose proof Hi as Hi2. apply Hm in Hi.
    assert (Hlt : dd < length (map lexid_word m)) by (rewrite map_length; apply nth_error_Some; congruence).
    rewrite (Ha dd Hlt). f_equal.
    assert (En : nth_error (map lexid_word m) dd = Some (N.of_nat i)) by (rewrite nth_error_map, Hi; reflexivity).
    rewrite (nth_error_nth _ _ 0%N En). apply W2. assert (i < length (stored (docs c))) by (apply nth_error_Some; congruence). lia.
  Qed.

  Lemma kept_segment lo hi : hi <= length (stored (docs c)) -> segment kept_docs lo hi = segment (docs c) lo hi.
  Proof using Type.
    intros H. unfold kept_docs, segment. destruct (stored_split (docs c)) as [rest E]. rewrite E at 4.
    assert (G : forall tl, firstn (hi - lo) (skipn lo (stored (docs c) ++ tl)) = firstn (hi - lo) (skipn lo (stored (docs c)))).
    { intros tl. rewrite skipn_app, firstn_app, skipn_length. replace (hi - lo - (length (stored (docs c)) - lo)) with 0 by lia. cbn. now rewrite app_nil_r. }
    now rewrite !G.
  Qed.

  Variable x : core.
  Hypothesis Hx : core_ok x.

  Lemma comp_len ids : In ids (comps c) -> 0 < length ids <= 63.
  Proof.
    intros H. destruct (wf_comps c Hwf) as (_ & _ & Hw). rewrite Forall_forall in Hw. now destruct (Hw _ H).
  Qed.

  Lemma decode_doc_ok d ids buf : is_doc c d ids -> In d (stored (docs c)) -> length buf = 128 ->
    exists buf', decode_doc x d buf = Ok (length ids, buf') /\ length buf' = 128 /\ firstn (length ids) buf' = ids.
  Proof.
    intros (i & Hd & Hi) Hk Hb. apply In_nth_error in Hk. destruct Hk as [j Hj].
    assert (j = i).
    { pose proof (stored_nth_error _ _ _ Hj) as Hj'. apply (proj1 (NoDup_nth_error (docs c)) (wf_docs_nodup c Hwf)); [apply nth_error_Some; congruence|congruence]. }
    subst j. unfold decode_doc. rewrite (c2_lexid x Hx i d Hj). cbn [bind]. rewrite Nat2N.id.
    destruct (ifc_extract_any (comps c) (wf_comps c Hwf)) as (cm & Ecm & L & _).
    assert (cm = co_comps x) by (pose proof (c2_comps x Hx); congruence). subst cm.
    destruct (L i ids) with (out := buf) as (buf' & E & L1 & F).
    { apply stored_nth_error_lt; [exact Hi|]. rewrite stored_length, <- (wf_docs_len c Hwf), <- stored_length. apply nth_error_Some. congruence. }
    { lia. }
    exists buf'. split; [exact E|]. split; [lia|exact F].
  Qed.

  (** Decoding a completion that the dictionary has lost reads out of bounds. *)
  Lemma decode_doc_lost d ids buf : is_doc c d ids -> ~ In d (stored (docs c)) -> decode_doc x d buf = UB.
  Proof.
    intros Hdoc Hlost. assert (Hin : In d (docs c)) by (destruct Hdoc as (i & Hd & _); eapply nth_error_In; eauto).
    unfold decode_doc. destruct (c2_lost x Hx d Hin Hlost) as (v & -> & Hv). cbn [bind].
    apply (ifc_extract_beyond (comps c)); [apply (wf_comps c Hwf)|apply (c2_comps x Hx)|]. pose proof (wf_docs_len c Hwf) as Hl.
    apply buckets_beyond; [pose proof (comps_nonempty c Hwf); lia| |lia].
    destruct (Nat.eq_dec (length (comps c) mod 17) 0) as [E|E]; [exact E|exfalso]. apply Hlost. rewrite stored_all by now rewrite Hl. exact Hin.
  Qed.

  (** The completion set holds the completions of the documents [ds]. *)
  Definition bufs_len (comps_ : list (list N)) (sizes : list nat) : Prop :=
    length comps_ = MAX_K /\ Forall (fun b => length b = 128) comps_ /\ length sizes = MAX_K.
  Definition set_holds (ds : list nat) (comps_ : list (list N)) (sizes : list nat) : Prop :=
    forall j d, nth_error ds j = Some d ->
      exists b, nth_error comps_ j = Some b /\ firstn (length (forward_list c d)) b = forward_list c d /\
        nth_error sizes j = Some (length (forward_list c d)).
  Definition has_doc (d : nat) : Prop := is_doc c d (forward_list c d).
  Definition kept_doc (d : nat) : Prop := has_doc d /\ In d (stored (docs c)).

  Lemma is_doc_has d ids : is_doc c d ids -> has_doc d.
  Proof. intros H. unfold has_doc. now rewrite (is_doc_fwd c Hwf d ids H). Qed.

  Lemma Forall_upd {A} (P : A -> Prop) l i v : Forall P l -> P v -> Forall P (upd l i v).
  Proof.
    intros H Hv. revert i. induction H as [|y l Hy H IH]; intros [|i]; cbn; constructor; auto.
  Qed.

  Lemma has_doc_len d : has_doc d -> 0 < length (forward_list c d) <= 63.
  Proof. intros H. apply comp_len. eapply is_doc_in; eauto. Qed.

  (** Decoding document [d] to slot [i]. *)
  Lemma slot_ok d i comps_ sizes : kept_doc d -> bufs_len comps_ sizes -> i < MAX_K ->
    exists b b', get comps_ i = Ok b /\ decode_doc x d b = Ok (length (forward_list c d), b') /\
      set comps_ i b' = Ok (upd comps_ i b') /\ slice b' 0 (length (forward_list c d)) = Ok (forward_list c d) /\
      set sizes i (length (forward_list c d) mod 256) = Ok (upd sizes i (length (forward_list c d))) /\
      bufs_len (upd comps_ i b') sizes /\ bufs_len (upd comps_ i b') (upd sizes i (length (forward_list c d))) /\
      firstn (length (forward_list c d)) b' = forward_list c d.
  Proof.
    intros [Hd Hkd] (L1 & L2 & L3) Hi. destruct (nth_error comps_ i) as [b|] eqn:Eb; [|apply nth_error_None in Eb; lia].
    assert (Hb : length b = 128) by (rewrite Forall_forall in L2; apply L2; eapply nth_error_In; eauto).
    destruct (decode_doc_ok d _ b Hd Hkd Hb) as (b' & E & Lb & F). pose proof (has_doc_len d Hd) as Hlen.
    exists b, b'. split; [now apply get_ok|]. split; [exact E|]. split; [apply set_ok; lia|].
    split; [rewrite slice_ok by lia; cbn [skipn]; now rewrite F|].
    rewrite Nat.mod_small by lia. split; [apply set_ok; lia|].
    unfold bufs_len. rewrite !upd_length. repeat split; auto; now apply Forall_upd.
  Qed.

  Lemma set_holds_snoc ds d comps_ sizes b : set_holds ds comps_ sizes -> length ds < MAX_K -> bufs_len comps_ sizes ->
    firstn (length (forward_list c d)) b = forward_list c d ->
    set_holds (ds ++ [d]) (upd comps_ (length ds) b) (upd sizes (length ds) (length (forward_list c d))).
  Proof.
    intros H Hl (L1 & L2 & L3) Hb j d' Hj. destruct (Nat.eq_dec j (length ds)) as [->|Hne].
    - rewrite nth_error_app2, Nat.sub_diag in Hj by lia. injection Hj as <-. exists b.
      split; [apply upd_same; lia|]. split; [exact Hb|apply upd_same; lia].
    - assert (Hlt : j < length ds).
      { assert (j < length (ds ++ [d])) by (apply nth_error_Some; congruence). rewrite app_length in H0. cbn in H0. lia. }
      rewrite nth_error_app1 in Hj by exact Hlt. destruct (H j d' Hj) as (b' & A & B & C). exists b'.
      rewrite !upd_other by lia. auto.
  Qed.

  Lemma set_holds_upd ds comps_ sizes i b : set_holds ds comps_ sizes -> length ds <= i -> set_holds ds (upd comps_ i b) sizes.
  Proof.
    intros H Hi j d Hj. destruct (H j d Hj) as (b' & A & B). exists b'. rewrite upd_other; [auto|].
    assert (j < length ds) by (apply nth_error_Some; congruence). lia.
  Qed.

  Lemma extract_completions_ok : forall todo done comps_ sizes scores,
    Forall kept_doc todo -> length (done ++ todo) <= MAX_K -> bufs_len comps_ sizes ->
    (forall j d, nth_error todo j = Some d -> nth_error scores (length done + j) = Some d) ->
    set_holds done comps_ sizes ->
    exists comps' sizes', extract_completions x scores (length done) (length todo) comps_ sizes = Ok (comps', sizes') /\
      bufs_len comps' sizes' /\ set_holds (done ++ todo) comps' sizes'.
  Proof.
    induction todo as [|d todo IH]; intros done comps_ sizes scores Hd Hl Hb Hs Hh.
    - exists comps_, sizes. rewrite app_nil_r. auto.
    - inversion Hd as [|? ? Hd1 Hd2]; subst. cbn [length extract_completions]. rewrite app_length in Hl. cbn [length] in Hl.
      pose proof (Hs 0 d eq_refl) as H0. rewrite Nat.add_0_r in H0. rewrite (get_ok _ _ _ H0). cbn [bind].
      destruct (slot_ok d (length done) comps_ sizes Hd1 Hb ltac:(lia)) as (b & b' & E1 & E2 & E3 & _ & E5 & _ & B & F).
      rewrite E1. cbn [bind]. rewrite E2. cbn [bind]. rewrite E3. cbn [bind]. rewrite E5. cbn [bind].
      destruct (IH (done ++ [d]) (upd comps_ (length done) b') (upd sizes (length done) (length (forward_list c d))) scores Hd2) as (c' & s' & E & B' & H').
      { rewrite !app_length. cbn. lia. } { exact B. }
      { intros j d' Hj. rewrite app_length. cbn [length]. rewrite <- (Hs (S j) d' Hj). f_equal. lia. }
      { apply set_holds_snoc; auto. lia. }
      rewrite app_length in E. cbn [length] in E. exists c', s'. split; [exact E|]. split; [exact B'|].
      now rewrite <- app_assoc in H'.
  Qed.

  Lemma extract_completions_lost : forall todo done comps_ sizes scores,
    Forall has_doc todo -> ~ Forall kept_doc todo -> length (done ++ todo) <= MAX_K -> bufs_len comps_ sizes ->
    (forall j d, nth_error todo j = Some d -> nth_error scores (length done + j) = Some d) ->
    extract_completions x scores (length done) (length todo) comps_ sizes = UB.
  Proof.
    induction todo as [|d todo IH]; intros done comps_ sizes scores Hd Hk Hl Hb Hs; [exfalso; now apply Hk|].
    inversion Hd as [|? ? Hd1 Hd2]; subst. cbn [length extract_completions]. rewrite app_length in Hl. cbn [length] in Hl.
    pose proof (Hs 0 d eq_refl) as H0. rewrite Nat.add_0_r in H0. rewrite (get_ok _ _ _ H0). cbn [bind].
    destruct (in_dec Nat.eq_dec d (stored (docs c))) as [Hin|Hlost].
    - destruct (slot_ok d (length done) comps_ sizes (conj Hd1 Hin) Hb ltac:(lia)) as (b & b' & E1 & E2 & E3 & _ & E5 & _ & B & F).
      rewrite E1. cbn [bind]. rewrite E2. cbn [bind]. rewrite E3. cbn [bind]. rewrite E5. cbn [bind].
      replace (length done + 1) with (length (done ++ [d])) by (rewrite app_length; reflexivity). apply IH; auto.
      { intros H. apply Hk. constructor; [split; assumption|exact H]. }
      { rewrite !app_length. cbn. lia. }
      { intros j d' Hj. rewrite app_length. cbn [length]. rewrite <- (Hs (S j) d' Hj). f_equal. lia. }
    - destruct Hb as (L1 & _). destruct (nth_error comps_ (length done)) as [b|] eqn:Eb; [|apply nth_error_None in Eb; lia].
      rewrite (get_ok _ _ _ Eb). cbn [bind]. now rewrite (decode_doc_lost d _ b Hd1 Hlost).
  Qed.

  Lemma extract_strings_exact ds comps_ sizes p scores : bufs_len comps_ sizes -> set_holds ds comps_ sizes ->
    pool_ok p -> firstn (length ds) scores = ds -> length scores = MAX_K -> Forall has_doc ds ->
    let r := extract_strings x (length ds) comps_ sizes {| p_scores := scores; p_offsets := [0]; p_data := p_data p |} in
    (reportable c (answer_of c ds) -> exists p', r = Ok p' /\ pool_ok p' /\ pool_results p' = Ok (answer_of c ds)) /\
    (~ reportable c (answer_of c ds) -> r = UB).
  Proof.
    intros Hb Hh [P1 P2] Hs Hl Hdocs r. subst r. unfold extract_strings.
    rewrite (reportable_writable c Hwf ds) by (rewrite <- Hs, firstn_length; lia).
    set (p0 := {| p_scores := scores; p_offsets := [0]; p_data := p_data p |}).
    destruct (write_strings_exact c Hwf (co_dict x) (c2_dict x Hx) (set_terms comps_ sizes)
                (map (forward_list c) ds) 0 p0 []) as [(W & p' & E & S & HP)|(W & E)].
    - intros j ids Hj. cbn [Nat.add]. rewrite nth_error_map in Hj. destruct (nth_error ds j) as [d|] eqn:Ed; [|discriminate].
      injection Hj as <-. unfold set_terms. destruct (Hh j d Ed) as (b & A & B & C).
      rewrite (get_ok _ _ _ A). cbn [bind]. rewrite (get_ok _ _ _ C). cbn [bind].
      destruct Hb as (_ & L2 & _). rewrite Forall_forall in L2. specialize (L2 b (nth_error_In _ _ A)).
      rewrite Forall_forall in Hdocs. pose proof (has_doc_len d (Hdocs d (nth_error_In _ _ Ed))).
      rewrite slice_ok by lia. cbn [skipn]. now rewrite B.
    - apply Forall_map. apply Forall_forall. intros d _. apply (forward_valid c Hwf).
    - repeat split; cbn; exact P2.
    - split; [|contradiction]. intros _. exists p'. rewrite map_length in E. split; [exact E|]. cbn [app] in HP.
      split; [split; [rewrite S; exact Hl|apply HP]|].
      rewrite (pool_results_ok p' _ ds HP); [|exact (writable_all_len c Hwf _ 0 ltac:(lia) W)|now rewrite !map_length|rewrite S; exact Hs].
      f_equal. unfold answer_of. clear. induction ds as [|d ds IH]; [reflexivity|]. cbn. now rewrite IH.
    - split; [contradiction|]. intros _. rewrite map_length in E. exact E.
  Qed.

  Lemma finish_exact ds scores s : state2_ok s -> p_offsets (s2_pool s) = [0] -> firstn (length ds) scores = ds ->
    length scores = MAX_K -> Forall has_doc ds -> retained c (answer_of c ds) ->
    (reportable c (answer_of c ds) ->
     exists s', finish x (length ds) scores s = Ok s' /\ pool_results (s2_pool s') = Ok (answer_of c ds) /\ state2_ok s') /\
    (~ reportable c (answer_of c ds) -> finish x (length ds) scores s = UB).
  Proof.
    intros (Hp & Hb & Hl & Hr & Hc & Hcl & Hsz) Hoff Hs Hls Hd Hkd. unfold finish. rewrite Hoff.
    assert (Hlen : length ds <= MAX_K) by (rewrite <- Hs, firstn_length; lia).
    destruct (extract_completions_ok ds [] (s2_comps s) (s2_sizes s) scores) as (comps' & sizes' & E & B & H).
    { apply Forall_forall. intros d Hin. split; [rewrite Forall_forall in Hd; now apply Hd|].
      apply (Hkd d (text c (forward_list c d))). apply in_map_iff. exists d. auto. }
    { exact Hlen. }
    { repeat split; assumption. }
    { intros j d Hj. cbn [length Nat.add]. rewrite <- Hs in Hj.
      assert (Hlt : j < length ds) by (assert (j < length (firstn (length ds) scores)) by (apply nth_error_Some; congruence); rewrite firstn_length in *; lia).
      now rewrite nth_error_firstn in Hj by exact Hlt. }
    { intros [|j] d Hj; discriminate. }
    cbn [length app] in E, H. rewrite E. cbn [bind].
    destruct (extract_strings_exact ds comps' sizes' (s2_pool s) scores B H Hp Hs Hls Hd) as [Hok Hub].
    split; intros Hfit; [|now rewrite (Hub Hfit)]. destruct (Hok Hfit) as (p' & Ep & Hp' & Hres).
    rewrite Ep. cbn [bind]. eexists. split; [reflexivity|]. cbn [s2_pool]. split; [exact Hres|].
    destruct B as (B1 & B2 & B3). repeat split; cbn; auto; apply Hp' || apply Hb.
  Qed.
  Lemma finish_ok ds scores s : state2_ok s -> p_offsets (s2_pool s) = [0] -> firstn (length ds) scores = ds ->
    length scores = MAX_K -> Forall has_doc ds ->
    (reportable2 c (answer_of c ds) ->
     exists s', finish x (length ds) scores s = Ok s' /\ pool_results (s2_pool s') = Ok (answer_of c ds) /\ state2_ok s') /\
    (~ reportable2 c (answer_of c ds) -> finish x (length ds) scores s = UB).
  Proof.
    intros Hs Ho Hf Hl Hd. split; [intros [Hr Hk]; apply (finish_exact ds scores s Hs Ho Hf Hl Hd Hk); exact Hr|].
    intros Hn. destruct (Forall_dec (fun d => In d (stored (docs c))) (fun d => in_dec Nat.eq_dec d (stored (docs c))) ds) as [Hk|Hk].
    - assert (Hre : retained c (answer_of c ds)).
      { intros d t Hin. apply in_map_iff in Hin. destruct Hin as (d' & E & Hin). injection E as <- _. rewrite Forall_forall in Hk. now apply Hk. }
      apply (finish_exact ds scores s Hs Ho Hf Hl Hd Hre). intros Hr. apply Hn. now split.
    - destruct Hs as (Hp & Hb & Hle & Hr & Hc & Hcl & Hsz). unfold finish.
      assert (Hlen : length ds <= MAX_K) by (rewrite <- Hf, firstn_length; lia).
      pose proof (extract_completions_lost ds [] (s2_comps s) (s2_sizes s) scores Hd) as E. cbn [length app] in E. rewrite E; [reflexivity| |exact Hlen| |].
      { intros H. apply Hk. eapply Forall_impl; [|exact H]. intros d [_ H']. exact H'. }
      { repeat split; assumption. }
      { intros j d Hj. cbn [length Nat.add]. rewrite <- Hf in Hj.
        assert (Hlt : j < length ds) by (assert (j < length (firstn (length ds) scores)) by (apply nth_error_Some; congruence); rewrite firstn_length in *; lia).
        now rewrite nth_error_firstn in Hj by exact Hlt. }
  Qed.

  Variable fuel : nat.
  Hypothesis Hfuel : query_fuel c < fuel.
  Variable k : nat.

  Definition answers2 (run : state2 -> res state2) (P : list (list N) -> Prop) : Prop :=
    forall s, state2_ok s -> exists out, topk_answer c P (limit c k) out /\
      (reportable2 c out -> exists s', run s = Ok s' /\ pool_results (s2_pool s') = Ok out /\ state2_ok s') /\
      (~ reportable2 c out -> run s = UB).

  (** The first steps of a query. *)
  Lemma start_ok must q ts last s : query_split q ts last -> state2_ok s ->
    exists o s', start x must q s = Ok (o, s') /\ state2_ok s' /\ s2_pool s' = pool_init (s2_pool s) /\
      match o with
      | None => (must = true /\ ~ Forall (known c) ts) \/
                (forall i, i < length (terms c) -> ~ found c last (nth i (terms c) []))
      | Some (prefix, a, b) =>
          (must = true -> Forall (known c) ts) /\ positions (stored (terms c)) ts prefix /\
          exact_range (length (terms c)) (fun i => found c last (nth i (terms c) [])) a b
      end.
  Proof.
    intros Hs (Hp & Hb & Hrest). unfold start.
    destruct (query_terms_ok c Hwf (co_dict x) (c2_dict x Hx) must q ts last (s2_bufs s) Hs Hb)
      as (o & b' & Eq & Hb' & Ho).
    rewrite Eq. cbn [bind]. eexists o, _. split; [reflexivity|]. cbn [s2_pool]. split; [|split; [reflexivity|exact Ho]].
    split; [apply Hp|]. split; [exact Hb'|exact Hrest].
  Qed.

  Lemma empty_results s s0 : s2_pool s = pool_init (s2_pool s0) -> pool_results (s2_pool s) = Ok [].
  Proof. intros ->. reflexivity. Qed.

  (** Finding F2 in terms of ids. *)
  Lemma prefix_found_ids ts last prefix a b ids : positions (stored (terms c)) ts prefix -> Forall (known c) ts ->
    exact_range (length (terms c)) (fun i => found c last (nth i (terms c) [])) a b -> In ids (comps c) -> In ids (stored (comps c)) ->
    (prefix_found c ts last (words_of c ids) <->
     continues_found (nth 0 (comps c) []) (map N.of_nat prefix) (N.of_nat (a + 1)) (N.of_nat (b + 1)) ids).
  Proof.
    intros Hpos Hall Hr Hids Hst. pose proof Hr as [Hab Hex]. destruct (positions_all c ts prefix Hpos Hall) as [Ew Hpr].
    assert (Hin0 : In (nth 0 (comps c) []) (comps c)) by (apply nth_In; apply (comps_nonempty c Hwf)).
    assert (Hidr : forall l, In l (comps c) -> Forall (fun x => 1 <= N.to_nat x <= length (terms c)) l).
    { intros l Hl. apply Forall_forall. intros x0 Hx0. now apply (ids_range c Hwf l). }
    destruct (wf_terms c Hwf) as (Hsorted & _).
    unfold prefix_found, continues_found. rewrite (prefix_match_ids c Hwf ts (found c last) ids prefix a b Hids Hpos Hall Hr).
    split; [intros (Hcon & _ & HF); split; [exact Hcon|]|intros [Hcon HF]; split; [exact Hcon|split; [exists ids; auto|]]].
    - intros E0. destruct HF as (w & E & Hmin); [now rewrite E0 at 1|]. destruct Hcon as (y & rest & Ey & Hy).
      assert (Elen : length ts = length prefix) by (rewrite <- Ew; unfold words_of; now rewrite !map_length).
      assert (rest = []) as ->.
      { apply (f_equal (@length _)) in E. rewrite Ey in E. unfold words_of in E. rewrite map_length, !app_length, map_length in E. cbn in E.
        destruct rest; [reflexivity|cbn in E; lia]. }
      rewrite Ey. do 2 f_equal.
      assert (Ewy : w = word c y).
      { rewrite Ey in E. unfold words_of in E. rewrite map_app in E. cbn [map] in E. apply app_inj_tail in E. symmetry. apply E. }
      destruct (Nat.eq_dec a (N.to_nat y - 1)) as [Ea|Ea]; [lia|exfalso].
      assert (Hl : lex_lt (nth a (terms c) []) (nth (N.to_nat y - 1) (terms c) [])) by (apply (lex_sorted_nth (terms c)); auto; lia).
      destruct (Hmin (nth a (terms c) [])) as [Heq|Hlt].
      { apply nth_In. lia. } { apply Hex; lia. }
      + rewrite Heq, Ewy in Hl. exact (lex_irrefl _ Hl).
      + rewrite Ewy in Hlt. exact (lex_irrefl _ (lex_trans _ _ _ Hl Hlt)).
    - intros E0. apply (words_inj c Hwf) in E0; [|now apply Hidr|now apply Hidr]. specialize (HF E0).
      exists (word c (N.of_nat (a + 1))). split.
      + rewrite HF. unfold words_of in *. rewrite map_app, Ew. reflexivity.
      + intros v Hv Hfv. apply (In_nth _ _ []) in Hv. destruct Hv as (i & Hi & <-). apply Hex in Hfv; [|exact Hi].
        unfold word. replace (N.to_nat (N.of_nat (a + 1)) - 1) with a by lia.
        destruct (Nat.eq_dec i a) as [->|Hne]; [now left|right]. apply (lex_sorted_nth (terms c)); auto; lia.
  Qed.

  Lemma docs_has n ds all P : k_smallest_distinct n all ds -> (forall d, In d all <-> exists ids, is_doc c d ids /\ P (words_of c ids)) ->
    Forall has_doc ds.
  Proof.
    intros (_ & _ & Hin & _) Hall. apply Forall_forall. intros d Hd. apply Hin in Hd. apply Hall in Hd.
    destruct Hd as (ids & Hdoc & _). eapply is_doc_has; eauto.
  Qed.

  Lemma core_prefix_ok q ts last : query_split q ts last ->
    answers2 (core_prefix_topk K x fuel k q) (prefix_found c ts last).
  Proof.
    intros Hs s Hst. unfold core_prefix_topk.
    destruct (start_ok true q ts last s Hs Hst) as (o & s1 & E1 & Hst1 & Hpool & Ho).
    rewrite E1. cbn [bind]. destruct o as [[[prefix a] b]|].
    2:{ exists []. split.
        - apply answer_nil. intros ids Hids [Hm _]. destruct (prefix_match_known c Hwf ts (found c last) ids Hids Hm) as [A (i & Hi & B)].
          destruct Ho as [[_ Hn]|Hn]; [contradiction|]. exact (Hn i Hi B).
        - split; [|intros H; exfalso; apply H; apply reportable2_nil].
          intros _. exists s1. split; [reflexivity|]. split; [now apply (empty_results s1 s)|exact Hst1]. }
    destruct Ho as (Hall & Hpos & Hr). specialize (Hall eq_refl).
    pose proof Hst1 as (Hp & Hb & Hl & Hrr & Hc & Hcl & Hsz).
    destruct (ifc_locate_prefix_any (comps c) (wf_comps c Hwf)) as (cm & Ecm & L).
    assert (cm = co_comps x) by (pose proof (c2_comps x Hx); congruence). subst cm.
    pose proof Hr as [Hab _]. pose proof (T_bound c Hwf) as HT.
    destruct (L (map N.of_nat prefix) (N.of_nat (a + 1)) (N.of_nat (b + 1)) (s2_left s1) (s2_right s1))
      as (r & prefix' & dl & dr & Er & Hdl & Hdr & _ & _ & Hran).
    { lia. }
    { exact Hl. } { exact Hrr. }
    rewrite Er. cbn [bind].
    assert (Hm : forall i, i < length (stored (comps c)) -> (prefix_found c ts last (words_of c (nth i (comps c) [])) <->
      continues_found (nth 0 (comps c) []) (map N.of_nat prefix) (N.of_nat (a + 1)) (N.of_nat (b + 1)) (nth i (comps c) []))).
    { intros i Hi. pose proof (stored_le (comps c)). apply (prefix_found_ids ts last prefix a b _ Hpos Hall Hr).
      - apply nth_In. lia.
      - rewrite <- stored_nth by exact Hi. now apply nth_In. }
    assert (Hpl : forall ids i, nth_error (comps c) i = Some ids -> prefix_found c ts last (words_of c ids) -> i < length (stored (comps c))).
    { intros ids i Hi (_ & (ids' & Hin & E) & _).
      assert (ids = ids').
      { apply (words_inj c Hwf); [| |exact E]; apply Forall_forall; intros z Hz; eapply (ids_range c Hwf); eauto; [eapply nth_error_In; eauto|now apply stored_In]. }
      subst ids'. apply In_nth_error in Hin. destruct Hin as [j Hj].
      assert (j = i).
      { pose proof (stored_nth_error _ _ _ Hj) as Hj'.
        apply (proj1 (NoDup_nth_error (comps c)) (lex_sorted_NoDup _ (proj1 (wf_comps c Hwf)))); [apply nth_error_Some; congruence|congruence]. }
      subst j. apply nth_error_Some. congruence. }
    cbv zeta.
    set (s2 := {| s2_pool := s2_pool s1; s2_bufs := s2_bufs s1; s2_left := dl; s2_right := dr;
                  s2_comps := s2_comps s1; s2_sizes := s2_sizes s1 |}).
    assert (Hst2 : state2_ok s2) by (repeat split; cbn; auto; apply Hp || apply Hb).
    destruct r as [[lo hi]|].
    2:{ exists []. split.
        - apply answer_nil. intros ids Hids H. apply In_nth_error in Hids. destruct Hids as [i Hi].
          pose proof (Hpl ids i Hi H) as Hlt. apply (Hran i Hlt). apply Hm; [exact Hlt|]. now rewrite (nth_error_nth _ _ [] Hi).
        - split; [|intros H0; exfalso; apply H0; apply reportable2_nil].
          intros _. exists s2. split; [reflexivity|]. split; [now apply (empty_results s2 s)|exact Hst2]. }
    destruct Hran as [Hlh Hran]. destruct (c2_docs x Hx) as (Hacc & Hsize & Hrmq).
    pose proof (wf_docs_len c Hwf) as Hdl'. pose proof (stored_le (docs c)) as Hsl. pose proof (stored_le (comps c)) as Hsl'.
    assert (Hkl : length kept_docs = length (docs c)) by (unfold kept_docs; rewrite app_length, repeat_length; lia).
    assert (Hss : length (stored (docs c)) = length (stored (comps c))) by (rewrite !stored_length, Hdl'; reflexivity).
    rewrite Hsize. pose proof Hp as [Hp1 Hp2].
    assert (Hfu : length (comps c) + 1 < fuel) by (pose proof (n_le_universe c Hwf); unfold query_fuel in Hfuel; nia).
    destruct (unsorted_topk_any (ul_acc (co_docs x)) kept_docs (ul_rmq (co_docs x)) (k_heap K scored_range) Hacc Hrmq
                (ok_heap K HK scored_range) k lo hi fuel (p_scores (s2_pool s2)) ltac:(lia) ltac:(lia) ltac:(lia)) as (ds & Hks & Hout).
    change (length (p_scores (s2_pool s2))) with (length (p_scores (s2_pool s1))) in Hout. rewrite Hp1 in Hout.
    rewrite kept_segment in Hks by lia.
    apply k_smallest_nodup in Hks; [|apply NoDup_segment; apply (wf_docs_nodup c Hwf)].
    exists (answer_of c ds).
    assert (Hall2 : forall d, In d (segment (docs c) lo hi) <-> exists ids, is_doc c d ids /\ prefix_found c ts last (words_of c ids)).
    { intros d. rewrite (segment_docs c Hwf) by lia. split.
      - intros (i & Hi & Ed). exists (nth i (comps c) []).
        assert (Hil : i < length (comps c)) by lia. split.
        + exists i. split; [exact Ed|now apply nth_error_nth'].
        + apply Hm; [lia|]. apply Hran; [lia|exact Hi].
      - intros (ids & (i & Ed & Ec) & HP). exists i. split; [|exact Ed].
        pose proof (Hpl ids i Ec HP) as Hil.
        apply Hran; [exact Hil|]. apply Hm; [exact Hil|]. now rewrite (nth_error_nth _ _ [] Ec). }
    split; [apply (answer_of_any c Hwf _ k (segment (docs c) lo hi)); [exact Hall2|]; rewrite segment_length by lia; exact Hks|].
    destruct Hout as [(Hlen & scores & Et & Hls & Hf)|(Hlen & Et)]; rewrite Et; cbn [bind].
    2:{ split; [|reflexivity]. intros [[Hr1 _] _]. unfold answer_of in Hr1. rewrite map_length in Hr1. lia. }
    apply (finish_ok ds scores s2 Hst2).
    { cbn [s2_pool s2]. rewrite Hpool. reflexivity. } { exact Hf. } { exact Hls. }
    { now apply (docs_has (if k =? 0 then S (hi - lo) else k) ds (segment (docs c) lo hi) (prefix_found c ts last)). }
  Qed.

  Lemma answers2_ext run (P Q : list (list N) -> Prop) :
    (forall ids, In ids (comps c) -> (P (words_of c ids) <-> Q (words_of c ids))) -> answers2 run P -> answers2 run Q.
  Proof using Type.
    intros H HP s Hs. destruct (HP s Hs) as (out & A & B). exists out. split; [|exact B]. eapply topk_answer_ext; eauto.
  Qed.
End Core2.
