(** Writing results into the string pool, and the first steps of a query. *)
From Verif Require Import Base S_Order S_Vocab M_Fc P_Fc S_Parse M_Parse P_ParseFc M_Trie M_Containers P_Containers M_Auto S_Collection S_Room S_Found S_Index P_Kept P_Room P_Collection.
Local Open Scope nat_scope.

Section Pool.
  Variable c : collection.
  Hypothesis Hwf : wf_collection c.
  Variable d : fcd.
  Hypothesis Hd : fc_build (terms c) = Ok d.

  Definition valid_ids (ids : list N) : Prop := Forall (fun x => 1 <= N.to_nat x <= length (stored (terms c))) ids.

  Lemma upd_firstn {A} (l : list A) o v : o < length l -> firstn (o + 1) (upd l o v) = firstn o l ++ [v].
  Proof.
    revert o; induction l as [|x l IH]; intros [|o] H; cbn in *; try lia; [reflexivity|].
    f_equal. apply IH. lia.
  Qed.

  Lemma valid_known ids : (forall x, In x ids -> 1 <= N.to_nat x <= length (terms c)) -> (forall x, In x ids -> known c (word c x)) -> valid_ids ids.
  Proof using Hwf.
    intros H1 H2. apply Forall_forall. intros x Hx. specialize (H1 x Hx). specialize (H2 x Hx). unfold word in H2.
    apply (known_nth c Hwf) in H2; lia.
  Qed.

  Lemma word_len x : 1 <= N.to_nat x <= length (stored (terms c)) -> length (word c x) <= 128.
  Proof using Hwf.
    intros Hx. destruct (wf_terms c Hwf) as (_ & _ & Hw). rewrite Forall_forall in Hw.
    assert (Hin : In (word c x) (terms c)) by (apply nth_In; pose proof (stored_le (terms c)); lia). apply Hw in Hin. destruct Hin as [_ H]. lia.
  Qed.

  Definition in_range (ids : list N) : Prop := Forall (fun x => 1 <= N.to_nat x <= length (terms c)) ids.

  Lemma extract_cases x out base : 1 <= N.to_nat x <= length (terms c) ->
    ((N.to_nat x <= length (stored (terms c)) /\ base + reach (terms c) (N.to_nat x - 1) <= length out) /\
     exists out', fc_extract d (N.to_nat x) out base = Ok (length (word c x), out') /\ length out' = length out /\
       firstn (base + length (word c x)) out' = firstn base out ++ word c x) \/
    (~ (N.to_nat x <= length (stored (terms c)) /\ base + reach (terms c) (N.to_nat x - 1) <= length out) /\
     fc_extract d (N.to_nat x) out base = UB).
  Proof.
    intros Hx. destruct (le_lt_dec (N.to_nat x) (length (stored (terms c)))) as [Hs|Hs].
    - destruct (fc_extract_exact (terms c) (wf_terms c Hwf)) as (d' & Ed & H). assert (d' = d) by congruence. subst d'.
      assert (Hi : nth_error (stored (terms c)) (N.to_nat x - 1) = Some (word c x)).
      { unfold word. rewrite <- stored_nth by lia. apply nth_error_nth'. lia. }
      specialize (H _ _ Hi out base). replace (N.to_nat x - 1 + 1) with (N.to_nat x) in H by lia.
      destruct H as [(Hr & out' & E & L & F1 & F2)|(Hr & E)]; [left|right; tauto]. split; [auto|]. exists out'. split; [exact E|]. split; [exact L|].
      set (t := word c x) in *. pose proof (reach_ge (terms c) (N.to_nat x - 1) (proj2 (proj2 (wf_terms c Hwf))) ltac:(lia)).
      transitivity (firstn base out' ++ firstn (length t) (skipn base out')); [|congruence].
      rewrite <- (firstn_skipn base out') at 1. rewrite firstn_app.
      rewrite firstn_length, L. replace (Nat.min base (length out)) with base by lia.
      rewrite firstn_all2 by (rewrite firstn_length; lia).
      replace (base + length t - base) with (length t) by lia. reflexivity.
    - right. split; [lia|]. destruct (fc_extract_any (terms c) (wf_terms c Hwf)) as (d' & Ed & _ & H). assert (d' = d) by congruence. subst d'.
      rewrite <- (H (N.to_nat x - 1) ltac:(lia) out base). f_equal. lia.
  Qed.

  (** Writing the words [ids] from offset [o] on is defined. *)
  Definition writable (o : nat) (ids : list N) : Prop := valid_ids ids /\ room_for c o ids.

  Lemma writable_cons o x ids : writable o (x :: ids) <->
    (1 <= N.to_nat x <= length (stored (terms c)) /\ o + reach (terms c) (N.to_nat x - 1) <= POOL_SIZE) /\ writable (o + length (word c x) + 1) ids.
  Proof using Type.
    unfold writable, valid_ids. cbn [room_for]. split.
    - intros (A & B & C). inversion A; subst. auto.
    - intros ((A & B) & C & D). repeat split; auto.
  Qed.

  Lemma reach_word x : 1 <= N.to_nat x <= length (terms c) -> length (word c x) <= reach (terms c) (N.to_nat x - 1).
  Proof using Hwf. intros Hx. apply reach_ge; [apply (wf_terms c Hwf)|lia]. Qed.

  Lemma word_pos x : 1 <= N.to_nat x <= length (terms c) -> 0 < length (word c x).
  Proof using Hwf.
    intros Hx. destruct (wf_terms c Hwf) as (_ & _ & Hw). rewrite Forall_forall in Hw.
    assert (Hin : In (word c x) (terms c)) by (apply nth_In; lia). apply Hw in Hin. destruct Hin as [_ H]. lia.
  Qed.

  Lemma write_terms_exact ids : forall o data, in_range ids -> length data = POOL_SIZE ->
    (writable o ids /\
     exists data', write_terms d ids o data = Ok (o + length (text c ids), data') /\ length data' = length data /\
       firstn (o + length (text c ids)) data' = firstn o data ++ text c ids) \/
    (~ writable o ids /\ write_terms d ids o data = UB).
  Proof.
    induction ids as [|x ids IH]; intros o data Hv Ho.
    - left. split; [split; [constructor|exact I]|]. cbn. rewrite Nat.add_0_r. exists data. rewrite app_nil_r. auto.
    - inversion Hv as [|? ? Hx Hids]; subst. rewrite writable_cons. cbn [write_terms].
      destruct (extract_cases x data o Hx) as [((Hs & Hr) & d1 & E1 & L1 & F1)|(Hn & E1)]; rewrite E1; cbn [bind];
        [|right; split; [rewrite Ho in Hn; tauto|reflexivity]].
      rewrite Ho in Hr. pose proof (reach_word x Hx) as Hrw.
      rewrite Nat.mod_small by (pose proof (word_len x ltac:(lia)); lia).
      destruct ids as [|y ids].
      + left. split; [split; [lia|split; [constructor|exact I]]|]. exists d1. change (text c [x]) with (word c x). auto.
      + assert (Et : text c (x :: y :: ids) = word c x ++ 32%N :: text c (y :: ids)) by reflexivity.
        rewrite Et in *. rewrite app_length in *. cbn [length] in *.
        destruct (Nat.eq_dec (o + length (word c x)) POOL_SIZE) as [Hfull|Hroom].
        * right. split.
          -- rewrite writable_cons. inversion Hids; subst. lia.
          -- rewrite set_over by lia. reflexivity.
        * rewrite set_ok by lia. cbn [bind].
          destruct (IH (o + length (word c x) + 1) (upd d1 (o + length (word c x)) SPACE) Hids) as [(W & d2 & E2 & L2 & F2)|(W & E2)].
          { rewrite upd_length. lia. }
          -- left. split; [split; [lia|exact W]|]. exists d2. rewrite upd_length in L2.
             replace (o + (length (word c x) + S (length (text c (y :: ids)))))
               with (o + length (word c x) + 1 + length (text c (y :: ids))) by lia.
             split; [exact E2|]. split; [lia|]. rewrite F2, upd_firstn by lia. rewrite F1, <- !app_assoc. reflexivity.
          -- right. split; [tauto|exact E2].
  Qed.

  Lemma writable_len ids : forall o, o <= POOL_SIZE -> writable o ids -> o + length (text c ids) <= POOL_SIZE.
  Proof using Hwf.
    induction ids as [|x ids IH]; intros o Ho W; [change (text c []) with (@nil N); cbn [length]; lia|]. apply writable_cons in W as [[Hx Hr] W].
    pose proof (stored_le (terms c)) as Hle. pose proof (reach_word x ltac:(lia)) as Hrw.
    destruct ids as [|y ids]; [change (text c [x]) with (word c x); lia|].
    assert (Et : text c (x :: y :: ids) = word c x ++ 32%N :: text c (y :: ids)) by reflexivity.
    rewrite Et, app_length. cbn [length]. apply IH in W; [lia|].
    apply writable_cons in W as [[Hy Hry] _]. lia.
  Qed.

  (** The pool holds the strings [strs]. *)
  Definition pool_holds (p : pool) (strs : list (list N)) : Prop :=
    length (p_data p) = POOL_SIZE /\ p_offsets p = fwd_pointers 0 strs /\
    firstn (length (concat strs)) (p_data p) = concat strs.

  Lemma fwd_pointers_snoc {strs : list (list N)} s : forall a,
    fwd_pointers a (strs ++ [s]) = fwd_pointers a strs ++ [a + length (concat strs) + length s].
  Proof.
    induction strs as [|x strs IH]; intros a; cbn [app fwd_pointers concat length].
    - cbn. do 2 f_equal. lia.
    - rewrite IH. cbn. do 2 f_equal. rewrite app_length. f_equal. lia.
  Qed.
  Lemma last_pointers (strs : list (list N)) : forall a, last (fwd_pointers a strs) 0 = a + length (concat strs).
  Proof.
    destruct strs as [|s strs] using rev_ind; intros a; [cbn; lia|].
    rewrite fwd_pointers_snoc, last_last, concat_app, app_length. cbn. rewrite app_nil_r. lia.
  Qed.

  (** The same for the completions [idss], one behind the other. *)
  Fixpoint writable_all (o : nat) (idss : list (list N)) : Prop :=
    match idss with
    | [] => True
    | ids :: idss' => writable o ids /\ writable_all (o + length (text c ids)) idss'
    end.

  Lemma writable_all_len idss : forall o, o <= POOL_SIZE -> writable_all o idss -> o + length (concat (map (text c) idss)) <= POOL_SIZE.
  Proof using Hwf.
    induction idss as [|ids idss IH]; intros o Ho W; [cbn [map concat length]; lia|]. destruct W as [W1 W2]. cbn [map concat]. rewrite app_length.
    apply writable_len in W1; [|exact Ho]. apply IH in W2; lia.
  Qed.

  Lemma write_strings_exact (term_ids : nat -> res (list N)) : forall idss i p strs,
    (forall j ids, nth_error idss j = Some ids -> term_ids (i + j) = Ok ids) -> Forall in_range idss ->
    pool_holds p strs ->
    (writable_all (length (concat strs)) idss /\
     exists p', write_strings d term_ids i (length idss) p = Ok p' /\ p_scores p' = p_scores p /\
       pool_holds p' (strs ++ map (text c) idss)) \/
    (~ writable_all (length (concat strs)) idss /\ write_strings d term_ids i (length idss) p = UB).
  Proof.
    induction idss as [|ids idss IH]; intros i p strs Ht Hv (P1 & P2 & P3).
    - left. split; [exact I|]. exists p. cbn. rewrite app_nil_r. repeat split; auto.
    - inversion Hv as [|? ? Hv1 Hv2]; subst. cbn [length write_strings writable_all].
      pose proof (Ht 0 ids eq_refl) as H0. rewrite Nat.add_0_r in H0. rewrite H0. cbn [bind].
      unfold pool_bytes. rewrite P2.
      assert (Eb : (match fwd_pointers 0 strs with [] => UB | o => Ok (last o 0) end) = Ok (length (concat strs))).
      { destruct (fwd_pointers 0 strs) eqn:E; [destruct strs; discriminate|]. rewrite <- E, last_pointers. reflexivity. }
      rewrite Eb. cbn [bind].
      destruct (write_terms_exact ids (length (concat strs)) (p_data p) Hv1 P1) as [(W & data' & E & L & F)|(W & E)]; rewrite E; cbn [bind];
        [|right; split; [tauto|reflexivity]].
      assert (Ec : length (concat (strs ++ [text c ids])) = length (concat strs) + length (text c ids)).
      { rewrite concat_app, app_length. cbn [concat]. now rewrite app_nil_r. }
      destruct (IH (i + 1) {| p_scores := p_scores p; p_offsets := fwd_pointers 0 strs ++ [length (concat strs) + length (text c ids)]; p_data := data' |}
                  (strs ++ [text c ids])) as [(W' & p' & E' & S' & H')|(W' & E')].
      + intros j ids' Hj. rewrite <- (Ht (S j) ids' Hj). f_equal. lia.
      + exact Hv2.
      + split; [cbn [p_data]; congruence|]. split; [cbn [p_offsets]; rewrite fwd_pointers_snoc; reflexivity|].
        cbn [p_data]. rewrite Ec, F, P3, concat_app. cbn [concat]. now rewrite app_nil_r.
      + left. rewrite Ec in W'. split; [auto|]. exists p'. split; [exact E'|]. split; [exact S'|]. cbn [map]. rewrite <- app_assoc in H'. exact H'.
      + right. rewrite Ec in W'. split; [tauto|exact E'].
  Qed.

  Lemma room_fwd o d0 : (forall ids, is_doc c d0 ids -> room_for c o ids) <-> room_for c o (forward_list c d0).
  Proof using Hwf.
    split.
    - intros H. destruct (forward_list c d0) as [|t l] eqn:E; [exact I|]. rewrite <- E. apply H.
      apply (fwd_is_doc c Hwf d0 t). rewrite E. now left.
    - intros H ids Hdoc. now rewrite <- (is_doc_fwd c Hwf d0 ids Hdoc).
  Qed.

  Lemma reportable_writable ds : length ds <= MAX_K -> (reportable c (answer_of c ds) <-> writable_all 0 (map (forward_list c) ds)).
  Proof using Hwf.
    intros Hlen. assert (Hl : length (answer_of c ds) <= MAX_K) by (unfold answer_of; now rewrite map_length).
    assert (Hroom : forall o, writable_all o (map (forward_list c) ds) <-> Forall valid_ids (map (forward_list c) ds) /\ has_room c o (answer_of c ds)).
    { clear Hlen Hl. induction ds as [|d0 ds IH]; intros o; cbn [map writable_all answer_of has_room]; [split; auto|]. rewrite room_fwd, IH. unfold writable. split.
      - intros ((A & B) & C & D). auto.
      - intros (A & B & C). inversion A; subst. auto. }
    rewrite Hroom. unfold reportable.
    assert (Hleg : legible c (answer_of c ds) <-> Forall valid_ids (map (forward_list c) ds)); [|tauto].
    split.
    - intros Hleg. apply Forall_map. apply Forall_forall. intros d0 Hd0. apply valid_known.
      + intros t Ht. pose proof (fwd_is_doc c Hwf d0 t Ht) as Hdoc. apply (ids_range c Hwf (forward_list c d0)); [now apply (is_doc_in c d0)|exact Ht].
      + intros t Ht. apply (Hleg d0 (text c (forward_list c d0)) (forward_list c d0) t); [|exact (fwd_is_doc c Hwf d0 t Ht)|exact Ht].
        apply in_map_iff. exists d0. auto.
    - intros Hv d0 s ids x Hin Hdoc Hx. apply in_map_iff in Hin. destruct Hin as (d1 & E & Hd1). injection E as -> <-.
      rewrite Forall_map, Forall_forall in Hv. specialize (Hv d0 Hd1). rewrite (is_doc_fwd c Hwf d0 ids Hdoc) in Hv.
      unfold valid_ids in Hv. rewrite Forall_forall in Hv. specialize (Hv x Hx). unfold word.
      pose proof (stored_le (terms c)). apply (known_nth c Hwf); lia.
  Qed.

  Lemma reportable2_nil : reportable2 c [].
  Proof using Type. split; [split; [cbn; unfold MAX_K; lia|split; [exact I|]]|]; intros d0 s; intros; contradiction. Qed.

  Lemma firstn_mid {A} (a b rest l : list A) n : firstn n l = a ++ b ++ rest -> firstn (length b) (skipn (length a) l) = b.
  Proof.
    intros H. rewrite <- (firstn_skipn n l), H. rewrite <- !app_assoc, skipn_app, skipn_all, Nat.sub_diag. cbn.
    rewrite firstn_app, Nat.sub_diag, firstn_all. cbn. now rewrite app_nil_r.
  Qed.

  Lemma pool_get_ok p strs j s score : pool_holds p strs -> length (concat strs) <= POOL_SIZE -> nth_error strs j = Some s ->
    nth_error (p_scores p) j = Some score -> pool_get p j = Ok (score, s).
  Proof.
    intros (P1 & P2 & P3) Hf Hs Hsc. unfold pool_get. rewrite P2.
    assert (Hj : j < length strs) by (apply nth_error_Some; congruence).
    rewrite (get_ok _ _ _ (fwd_pointers_nth strs 0 j ltac:(lia))). cbn [bind].
    rewrite (get_ok _ _ _ (fwd_pointers_nth strs 0 (j + 1) ltac:(lia))). cbn [bind]. cbn [Nat.add].
    rewrite (Nat.add_1_r j), (concat_firstn_S strs j s Hs).
    replace (length (concat (firstn j strs)) + length s - length (concat (firstn j strs))) with (length s) by lia.
    pose proof (concat_firstn_le strs (S j)) as Hle. rewrite (concat_firstn_S strs j s Hs) in Hle.
    rewrite slice_ok by lia. cbn [bind]. rewrite (get_ok _ _ _ Hsc). cbn [bind]. do 2 f_equal.
    destruct (nth_error_split strs j Hs) as (l1 & l2 & -> & <-).
    rewrite firstn_app, firstn_all, Nat.sub_diag, app_nil_r.
    apply (firstn_mid (concat l1) s (concat l2) _ (length (concat (l1 ++ s :: l2)))).
    rewrite P3, concat_app. reflexivity.
  Qed.

  Lemma pool_results_ok p strs ds : pool_holds p strs -> length (concat strs) <= POOL_SIZE ->
    length ds = length strs -> firstn (length ds) (p_scores p) = ds -> pool_results p = Ok (combine ds strs).
  Proof.
    intros HP Hf Hl Hsc. pose proof HP as (P1 & P2 & P3). unfold pool_results. rewrite P2.
    assert (El : length (fwd_pointers 0 strs) = length strs + 1) by apply fwd_pointers_length.
    destruct (fwd_pointers 0 strs) as [|x o] eqn:E; [cbn in El; lia|]. cbn in El. replace (length o) with (length strs) by lia.
    assert (G : forall m i, i + m = length strs -> map_res (pool_get p) (seq i m) = Ok (skipn i (combine ds strs))).
    { induction m as [|m IH]; intros i Hi; cbn [seq map_res].
      - rewrite skipn_all2; [reflexivity|]. rewrite combine_length. lia.
      - destruct (nth_error strs i) as [s|] eqn:Es; [|apply nth_error_None in Es; lia].
        destruct (nth_error ds i) as [sc|] eqn:Ed; [|apply nth_error_None in Ed; lia].
        assert (Hs2 : nth_error (p_scores p) i = Some sc).
        { rewrite <- Hsc in Ed. rewrite nth_error_firstn in Ed; [exact Ed|]. lia. }
        rewrite (pool_get_ok p strs i s sc HP Hf Es Hs2). cbn [bind]. rewrite (IH (S i)) by lia. cbn [bind]. f_equal.
        clear -Es Ed. revert i strs Es Ed. induction ds as [|y ds IH]; intros i strs Es Ed; [destruct i; discriminate|].
        destruct strs as [|z strs]; [destruct i; discriminate|].
        destruct i as [|i]; cbn in *; [congruence|]. now apply IH. }
    exact (G (length strs) 0 eq_refl).
  Qed.

  (** * parse and locate_prefix *)
  Lemma query_terms_ok must q ts last b : query_split q ts last -> bufs_ok b ->
    exists o b', query_terms d must q b = Ok (o, b') /\ bufs_ok b' /\
      match o with
      | None => (must = true /\ ~ Forall (known c) ts) \/
                (forall i, i < length (terms c) -> ~ found c last (nth i (terms c) []))
      | Some (prefix, x, y) =>
          (must = true -> Forall (known c) ts) /\ positions (stored (terms c)) ts prefix /\
          exact_range (length (terms c)) (fun i => found c last (nth i (terms c) [])) x y
      end.
  Proof.
    intros Hs (B1 & B2 & B3).
    destruct (parse_fc_any (terms c) (wf_terms c Hwf)) as (d1 & Ed1 & Hp). assert (d1 = d) by congruence. subst d1.
    destruct (fc_locate_prefix_any (terms c) (wf_terms c Hwf)) as (d2 & Ed2 & Hl). assert (d2 = d) by congruence. subst d2.
    unfold query_terms. destruct (Hp must q (db_locate b) ts last B1 Hs) as (dec' & Ldec & [(Hm & Hn & E)|(Hm & ids & E & Hpos)]).
    - rewrite E. cbn [bind]. exists None. eexists. split; [reflexivity|]. split; [repeat split; cbn; assumption|]. left. auto.
    - rewrite E. cbn [bind]. destruct (Hl last (db_left b) (db_right b) B2 B3) as (r & dl & dr & El & L1 & L2 & Hr0 & Hr1).
      rewrite El. cbn [bind]. clear El.
      assert (Hr : match r with
        | Some (a, b') => exact_range (length (terms c)) (fun i => found c last (nth i (terms c) [])) a b'
        | None => forall i, i < length (terms c) -> ~ found c last (nth i (terms c) [])
        end).
      { destruct last as [|x0 l0].
        - rewrite (Hr0 eq_refl). pose proof (terms_nonempty c Hwf). split; [lia|]. intros i Hi. split; [|lia]. intros _.
          split; [|now left]. split; [now exists (nth i (terms c) [])|]. intros _. now left.
        - specialize (Hr1 ltac:(discriminate)). pose proof (stored_le (terms c)) as Hle. destruct r as [[a b']|].
          + destruct Hr1 as [Hab Hex]. split; [lia|]. intros i Hi. unfold found. rewrite (known_nth c Hwf i Hi). split.
            * intros Hin. split; [apply Hex; lia|right; lia].
            * intros [Hf [Hn|Hn]]; [discriminate|]. now apply Hex.
          + intros i Hi [Hf [Hn|Hn]]; [discriminate|]. apply (known_nth c Hwf i Hi) in Hn. exact (Hr1 i Hn Hf). }
      destruct r as [[x y]|].
      + exists (Some (ids, x, y)). eexists. split; [reflexivity|]. split; [repeat split; cbn; assumption|]. auto.
      + exists None. eexists. split; [reflexivity|]. split; [repeat split; cbn; assumption|]. right. exact Hr.
  Qed.
End Pool.
