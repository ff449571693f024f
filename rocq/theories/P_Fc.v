(** Correctness of fc_dictionary. *)
From Verif Require Import Base S_Order S_Vocab P_Order P_Compare M_Compare M_Fc P_FcGen.

Local Ltac lia := first [Lia.lia | Lia.nia].

Section Bucket.
  Context {bucket : bucket_size}.

(** One decoding step. *)
Definition fc_good (s : list N) : Prop := length s <= MAX_CHARS.

Lemma fc_decode_ok mem cur out base prev s rest :
  skipn cur mem = fc_write prev s ++ rest ->
  MAX_CHARS <= length rest ->
  fc_good s -> fc_good prev ->
  base + lcp s prev + MAX_CHARS <= length out ->
  firstn (length prev) (skipn base out) = prev ->
  exists out',
    fc_decode mem cur out base = Ok (length s, lcp s prev, out') /\
    length out' = length out /\
    firstn base out' = firstn base out /\
    firstn (length s) (skipn base out') = s /\
    skipn (cur + (length s - lcp s prev) * 1 + 2) mem = rest.
Proof.
  intros Hmem Hrest Hs _ Hout Hprev. unfold fc_good, MAX_CHARS in *. rewrite Nat.mul_1_r.
  set (l := lcp s prev) in *.
  assert (Hl : l <= length s) by apply lcp_le_l.
  assert (Hl2 : l <= length prev) by apply lcp_le_r.
  unfold fc_write in Hmem. fold l in Hmem. cbn [app] in Hmem.
  rewrite N.mod_small in Hmem by lia. rewrite N.mod_small in Hmem by lia.
  assert (Hlen : length mem = cur + (2 + ((length s - l) + length rest))).
  { assert (length (skipn cur mem) = 2 + ((length s - l) + length rest)) as E.
    { rewrite Hmem. cbn [length]. rewrite app_length, skipn_length. lia. }
    rewrite skipn_length in E. lia. }
  unfold fc_decode.
  assert (E0 : get mem cur = Ok (N.of_nat l)).
  { apply get_ok. rewrite <- (Nat.add_0_r cur), <- nth_error_skipn, Hmem. reflexivity. }
  assert (E1 : get mem (cur + 1) = Ok (N.of_nat (length s - l))).
  { apply get_ok. rewrite <- nth_error_skipn, Hmem. reflexivity. }
  rewrite E0, E1. cbn [bind].
  assert (E2 : skipn (cur + 2) mem = skipn l s ++ rest).
  { rewrite Nat.add_comm, <- skipn_skipn, Hmem. reflexivity. }
  rewrite slice_ok by (unfold MAX_CHARS; lia). cbn [bind].
  rewrite E2. set (src := firstn MAX_CHARS (skipn l s ++ rest)).
  assert (Hsrc : length src = 128).
  { subst src. unfold MAX_CHARS. rewrite firstn_length, app_length, skipn_length. lia. }
  rewrite Nat2N.id.
  rewrite blit_ok by lia. cbn [bind].
  replace (N.to_nat ((N.of_nat l + N.of_nat (length s - l)) mod 256)) with (length s)
    by (rewrite N.mod_small; lia).
  eexists. split; [reflexivity|].
  split; [rewrite !app_length, firstn_length, skipn_length; lia|].
  assert (Efb : length (firstn (base + l) out) = base + l) by (rewrite firstn_length; lia).
  split.
  { rewrite firstn_app, Efb. replace (base - (base + l)) with 0 by lia. cbn [firstn].
    rewrite app_nil_r, firstn_firstn. f_equal. lia. }
  split.
  { rewrite skipn_app, Efb. replace (base - (base + l)) with 0 by lia. cbn [skipn].
    replace (skipn base (firstn (base + l) out)) with (firstn l (skipn base out)).
    2:{ rewrite firstn_skipn_comm. reflexivity. }
    assert (El : firstn l (skipn base out) = firstn l prev).
    { rewrite <- Hprev. rewrite firstn_firstn. f_equal. lia. }
    rewrite El.
    assert (Elp : length (firstn l prev) = l) by (rewrite firstn_length; lia).
    rewrite firstn_app, Elp. rewrite (firstn_all2 (firstn l prev)) by lia.
    rewrite firstn_app, Hsrc. replace (length s - l - 128) with 0 by lia. cbn [firstn]. rewrite app_nil_r.
    subst src. rewrite firstn_firstn.
    replace (Nat.min (length s - l) MAX_CHARS) with (length s - l) by (unfold MAX_CHARS; lia).
    rewrite firstn_app. rewrite skipn_length. replace (length s - l - (length s - l)) with 0 by lia.
    cbn [firstn]. rewrite app_nil_r. rewrite (firstn_all2 (skipn l s)) by (rewrite skipn_length; lia).
    subst l. rewrite <- lcp_firstn. apply firstn_skipn. }
  { replace (cur + (length s - l) + 2) with ((length s - l) + (cur + 2)) by lia.
    rewrite <- skipn_skipn, E2. rewrite skipn_app, skipn_length.
    rewrite (skipn_all2 (skipn l s)) by (rewrite skipn_length; lia).
    replace (length s - l - (length s - l)) with 0 by lia. reflexivity. }
Qed.

(** The generic bucket lemmas for byte strings. *)
Definition fc_layout : fcd -> list (list N) -> Prop := layout fc_write MAX_CHARS.

Lemma fc_build_layout terms :
  terms <> [] -> exists d, fc_build terms = Ok d /\ fc_layout d terms.
Proof.
  intros Hne.
  destruct (build_layout fc_write MAX_CHARS (fun s => s) (fun _ _ => True)
              (fun prev s => Ok (fc_write prev s)) (fun h => h) terms) as (d & E & L); auto.
  - clear. induction terms as [|a terms IH]; [exact I|]. destruct terms; [exact I|]. split; [exact I|exact IH].
  - exists d. rewrite map_id in E. split; [exact E|exact L].
Qed.

Lemma wf_terms_good terms : Forall wf_term terms -> Forall fc_good terms.
Proof. apply Forall_impl. intros t (_ & H). unfold fc_good, MAX_CHARS. lia. Qed.

Lemma wf_nth terms i : Forall wf_term terms -> i < length terms -> wf_term (nth i terms []).
Proof. apply Forall_nth_d. Qed.

Lemma fc_good_len s : fc_good s -> length s <= MAX_CHARS.
Proof. auto. Qed.

(** ** extract *)
Lemma fc_extract_ok d terms id out base :
  fc_layout d terms -> wf_vocab terms -> not_multiple (length terms) ->
  1 <= id <= length terms ->
  base + 2 * MAX_CHARS <= length out ->
  let s := nth (id - 1) terms [] in
  exists out', fc_extract d id out base = Ok (length s, out') /\
     length out' = length out /\ firstn base out' = firstn base out /\
     firstn (length s) (skipn base out') = s.
Proof.
  intros L (Hsort & Hne & Hwf) H17 Hid Hout s.
  destruct id as [|i]; [lia|]. subst s. replace (S i - 1) with i by lia.
  apply (extract_at_ok fc_write fc_decode 1 MAX_CHARS MAX_CHARS fc_good fc_good_len
           ltac:(unfold MAX_CHARS; lia) fc_decode_ok); auto using wf_terms_good; lia.
Qed.

Lemma fc_scan_bucket_ok {R} d terms b (test : nat -> list N -> option R) stop dec :
  fc_layout d terms -> wf_vocab terms -> b < fc_num_buckets (length terms) ->
  2 * MAX_CHARS <= length dec ->
  exists dec',
    fc_scan_bucket (fc_decode (fc_bkts d)) 1 d (nth (b * (BUCKET + 1)) terms []) b test (fun n => Ok (stop n)) dec =
    Ok (pure_scan test (stop (bsz (length terms) b)) 1
          (firstn (bsz (length terms) b) (skipn (b * (BUCKET + 1) + 1) terms)), dec') /\ length dec' = length dec.
Proof.
  intros L (Hsort & Hne & Hwf) Hb Hdec.
  apply (scan_bucket_ok fc_write fc_decode 1 MAX_CHARS MAX_CHARS fc_good fc_good_len ltac:(unfold MAX_CHARS; lia) fc_decode_ok); auto using wf_terms_good.
Qed.

(** ** locate *)
Lemma fc_locate_ok d terms t dec :
  fc_layout d terms -> wf_vocab terms -> not_multiple (length terms) ->
  length dec = 2 * MAX_CHARS ->
  exists r dec', fc_locate d t dec = Ok (r, dec') /\ length dec' = 2 * MAX_CHARS /\
    match r with
    | Some id => 1 <= id <= length terms /\ nth (id - 1) terms [] = t
    | None => ~ In t terms
    end.
Proof.
  intros L W H17 Hdec. pose proof W as (Hsort & Hne & Hwf). unfold not_multiple in H17.
  set (n := length terms) in *.
  assert (Hn : 0 < n) by (subst n; destruct terms; [congruence|cbn; lia]).
  set (nb := fc_num_buckets n).
  assert (Hnb : 0 < nb) by (apply num_buckets_pos; lia).
  set (hs := fun b => nth (b * (BUCKET + 1)) terms []).
  assert (Hidx : forall b, b < nb -> b * (BUCKET + 1) + bsz n b < n) by (intros b Hb; pose proof (nb_bound n b Hn Hb); lia).
  destruct (locate_bucket_ok (fc_header d) hs nb (lay_header _ _ _ _ L) byte_range_compare t Hnb)
    as (ish & h & b & E & Hb & Eh & Htrue & Hfalse).
  { intros b Hb. apply brc_sgn, nul_free_not_same_l. specialize (Hidx b Hb).
    apply (wf_nth terms (b * (BUCKET + 1)) Hwf). fold n. lia. }
  { intros i j Hij. subst hs. cbv beta. apply lex_sorted_nth; [exact Hsort|].
    specialize (Hidx j ltac:(lia)). fold n. lia. }
  unfold fc_locate. rewrite (lay_buckets _ _ _ _ L). fold n nb. rewrite E. cbn [bind].
  specialize (Hidx b Hb) as Hbn.
  destruct ish.
  - do 2 eexists. split; [reflexivity|]. split; [exact Hdec|]. cbv beta iota.
    replace (b * (BUCKET + 1) + 1 - 1) with (b * (BUCKET + 1)) by lia.
    split; [lia|]. apply Htrue. reflexivity.
  - destruct (Hfalse eq_refl) as [Hlow Hhigh]. clear Htrue Hfalse. subst h.
    unfold fc_locate_in. subst hs. cbv beta in *.
    set (test := fun (i : nat) (s : list N) =>
             if (byte_range_compare t s =? 0)%Z then Some (Some i)
             else if (byte_range_compare t s <? 0)%Z then Some None else None).
    destruct (fc_scan_bucket_ok d terms b test (fun _ => None) dec L W Hb ltac:(lia)) as (dec' & E' & Hl').
    change (fun (i : nat) (s : list N) =>
             let cmp := byte_range_compare t s in
             if (cmp =? 0)%Z then Some (Some i)
             else if (cmp <? 0)%Z then Some None else None) with test.
    rewrite E'. cbn [bind]. do 2 eexists. split; [reflexivity|]. split; [lia|].
    fold n. set (ss := firstn (bsz n b) (skipn (b * (BUCKET + 1) + 1) terms)) in *.
    assert (Hss : length ss = bsz n b) by (apply bucket_strs_len; auto).
    assert (Hnth : forall j s, nth_error ss j = Some s ->
                  j < bsz n b /\ s = nth (b * (BUCKET + 1) + 1 + j) terms [] /\ nul_free s).
    { intros j s Hj. apply (nth_error_nth_iff ss j []) in Hj as [Hj <-].
      rewrite Hss in Hj. split; [exact Hj|]. subst ss. rewrite bucket_strs_nth by exact Hj.
      split; [reflexivity|]. apply (wf_nth terms _ Hwf). fold n. lia. }
    (* where could t be *)
    assert (Hwhere : forall i, i < n -> nth i terms [] = t -> exists j, i = b * (BUCKET + 1) + 1 + j /\ j < bsz n b).
    { intros i Hi Ei. destruct (split_index n i H17 Hi) as (Es & Hib & Hik).
      set (bi := i / (BUCKET + 1)) in *. set (k := i mod (BUCKET + 1)) in *.
      destruct (Nat.lt_trichotomy bi b) as [Hlt|[Heq|Hgt]].
      - exfalso. destruct Hlow as [[-> _]|Hlow]; [lia|].
        assert (lex_lt (nth i terms []) (nth (b * (BUCKET + 1)) terms [])) as Hl.
        { apply lex_sorted_nth; [exact Hsort|]. fold n. unfold bsz in Hik.
          destruct (Nat.eqb_spec bi (fc_num_buckets n - 1)); [subst nb; lia|]. lia. }
        rewrite Ei in Hl. exact (lex_asym _ _ Hl Hlow).
      - rewrite Heq in *. destruct k as [|k'].
        + exfalso. replace i with (b * (BUCKET + 1)) in Ei by lia. destruct Hlow as [[-> Hlow]|Hlow].
          * rewrite Nat.mul_0_l in Ei. cbn in Hlow. rewrite Ei in Hlow. exact (lex_irrefl _ Hlow).
          * rewrite Ei in Hlow. exact (lex_irrefl _ Hlow).
        + exists k'. lia.
      - exfalso. specialize (Hhigh bi ltac:(subst nb; lia)).
        destruct k as [|k'].
        + replace i with (bi * (BUCKET + 1)) in Ei by lia. rewrite Ei in Hhigh. exact (lex_irrefl _ Hhigh).
        + assert (lex_lt (nth (bi * (BUCKET + 1)) terms []) (nth i terms [])) as Hl.
          { apply lex_sorted_nth; [exact Hsort|]. fold n. lia. }
          rewrite Ei in Hl. exact (lex_asym _ _ Hl Hhigh). }
    destruct (pure_scan_spec test None 1 ss) as [(j & s & r & Hj & Htest & Hr & Hbefore)|[Hr Hall]];
      rewrite Hr.
    + destruct (Hnth j s Hj) as (Hjb & Es & Hsn).
      destruct (byte_compare_correct t s (nul_free_not_same_r t s Hsn)) as (C1 & C2 & C3).
      unfold test in Htest.
      destruct (Z.eqb_spec (byte_range_compare t s) 0) as [Ez|Ez].
      * injection Htest as <-. apply C2 in Ez. 
        split; [lia|]. rewrite Ez, Es. f_equal. lia.
      * destruct (Z.ltb_spec (byte_range_compare t s) 0) as [El|El]; [|discriminate].
        injection Htest as <-. apply C1 in El. intros Hin.
        apply (In_nth _ _ []) in Hin as (i & Hi & Ei). fold n in Hi.
        destruct (Hwhere i Hi Ei) as (j' & Eij & Hj').
        destruct (Nat.lt_trichotomy j' j) as [H|[H|H]].
        -- assert (Hsj' : nth_error ss j' = Some t).
           { apply (nth_error_nth_iff ss j' []). rewrite Hss. split; [lia|].
             subst ss. rewrite bucket_strs_nth by lia. rewrite <- Eij. exact Ei. }
           specialize (Hbefore j' t H Hsj'). unfold test in Hbefore.
           assert (Htn : nul_free t) by apply (Hnth _ _ Hsj').
           destruct (byte_compare_correct t t (nul_free_not_same_r t t Htn)) as (_ & D2 & _).
           rewrite (proj2 D2 eq_refl) in Hbefore. discriminate.
        -- subst j'. rewrite <- Eij, Ei in Es. subst s. exact (lex_irrefl _ El).
        -- assert (lex_lt s (nth i terms [])) as Hl.
           { rewrite Es. apply lex_sorted_nth; [exact Hsort|]. fold n. lia. }
           rewrite Ei in Hl. exact (lex_asym _ _ El Hl).
    + intros Hin.
      apply (In_nth _ _ []) in Hin as (i & Hi & Ei). fold n in Hi.
      destruct (Hwhere i Hi Ei) as (j' & Eij & Hj').
      assert (Hsj' : nth_error ss j' = Some t).
      { apply (nth_error_nth_iff ss j' []). rewrite Hss. split; [lia|].
        subst ss. rewrite bucket_strs_nth by lia. rewrite <- Eij. exact Ei. }
      specialize (Hall j' t Hsj'). unfold test in Hall.
      assert (Htn : nul_free t) by apply (Hnth _ _ Hsj').
      destruct (byte_compare_correct t t (nul_free_not_same_r t t Htn)) as (_ & D2 & _).
      rewrite (proj2 D2 eq_refl) in Hall. discriminate.
Qed.

(** ** locate_prefix *)
Section LocatePrefix.
  Variable d : fcd.
  Variable terms : list (list N).
  Variable p : list N.
  Hypothesis L : fc_layout d terms.
  Hypothesis W : wf_vocab terms.
  Hypothesis H17 : not_multiple (length terms).
  Hypothesis Hpne : p <> [].

  Let n := length terms.
  Let nb := fc_num_buckets n.
  Let T (i : nat) := nth i terms [].
  Let c (i : nat) := pcmp (T i) p.

  Local Lemma Hn : 0 < n.
  Proof. subst n. destruct W as (_ & Hne & _). destruct terms; [congruence|cbn; lia]. Qed.
  Local Lemma Hnb : 0 < nb.
  Proof. apply num_buckets_pos. apply Hn. Qed.
  Local Lemma bnd b : b < nb -> b * (BUCKET + 1) + bsz n b < n.
  Proof. intros Hb. pose proof (nb_bound n b Hn Hb). lia. Qed.
  Local Lemma last_bnd : (nb - 1) * (BUCKET + 1) + bsz n (nb - 1) + 1 = n.
  Proof.
    pose proof (num_buckets_total n H17) as E. unfold bsz. fold nb in E |- *. rewrite Nat.eqb_refl.
    lia.
  Qed.
  Local Lemma bsz_full b : b < nb - 1 -> bsz n b = BUCKET.
  Proof. intros H. unfold bsz. fold nb. destruct (Nat.eqb_spec b (nb - 1)); [lia|reflexivity]. Qed.
  Local Lemma T_nul i : i < n -> nul_free (T i).
  Proof. intros Hi. destruct W as (_ & _ & Hw). apply (wf_nth terms i Hw Hi). Qed.
  Local Lemma T_lt i j : i < j < n -> lex_lt (T i) (T j).
  Proof. intros H. destruct W as (Hs & _). now apply lex_sorted_nth. Qed.
  Local Lemma c_gt i j : i <= j < n -> c i = Gt -> c j = Gt.
  Proof.
    intros H. destruct (Nat.eq_dec i j) as [->|Hne]; [auto|].
    apply (pcmp_mono (T i) (T j) p). apply T_lt. lia.
  Qed.
  Local Lemma c_lt i j : i <= j < n -> c j = Lt -> c i = Lt.
  Proof.
    intros H. destruct (Nat.eq_dec i j) as [->|Hne]; [auto|].
    apply (pcmp_mono (T i) (T j) p). apply T_lt. lia.
  Qed.
  Local Lemma cmp_n i : i < n -> sgn_is (byte_range_compare_n (T i) p (length p)) (c i).
  Proof. intros Hi. apply brcn_sgn, nul_free_not_same_l; now apply T_nul. Qed.
  Local Lemma cmp_full i : i < n -> (byte_range_compare (T i) p = 0)%Z <-> T i = p.
  Proof. intros Hi. apply byte_compare_correct, nul_free_not_same_l; now apply T_nul. Qed.

  Lemma locate_buckets_ok :
    exists bb be, fc_locate_buckets d p = Ok (bb, be) /\ bb <= be < nb /\
      (T (bb * (BUCKET + 1)) = p \/ c (bb * (BUCKET + 1)) = Lt \/ bb = 0) /\
      (bb = nb - 1 \/ c ((bb + 1) * (BUCKET + 1)) <> Lt) /\
      (be = bb \/ c (be * (BUCKET + 1)) = Eq) /\
      (be = nb - 1 \/ c ((be + 1) * (BUCKET + 1)) = Gt).
  Proof.
    pose proof Hnb as Hnb. unfold fc_locate_buckets. rewrite (lay_buckets _ _ _ _ L). fold n nb.
    set (hs := fun b => nth (b * (BUCKET + 1)) terms []).
    destruct (bsearch_ok (fc_header d) hs nb (lay_header _ _ _ _ L)
                (fun cmp => (cmp >=? 0)%Z) (fun h => byte_range_compare_n h p (length p)) 0%Z)
      as (lo & mi & cmp & h & E & Hlo & HL & HR & _); [lia| |].
    { intros i j Hij _ Hi. subst hs. cbv beta in *. fold (T (i * (BUCKET + 1))) (T (j * (BUCKET + 1))) in *.
      pose proof (bnd j ltac:(lia)).
      pose proof (cmp_n (i * (BUCKET + 1)) ltac:(lia)) as Si. pose proof (cmp_n (j * (BUCKET + 1)) ltac:(lia)) as Sj.
      destruct (Z.geb_spec (byte_range_compare_n (T (j * (BUCKET + 1))) p (length p)) 0) as [|Hj]; [reflexivity|].
      apply (sgn_lt _ _ Sj) in Hj. pose proof (c_lt (i * (BUCKET + 1)) (j * (BUCKET + 1)) ltac:(lia) Hj) as Hc.
      apply (sgn_lt _ _ Si) in Hc. lia. }
    rewrite E. cbn [bind]. subst hs. cbv beta in *.
    assert (HL' : forall b, (Z.of_nat b < lo)%Z -> b < nb -> c (b * (BUCKET + 1)) = Lt).
    { intros b Hb Hbn. pose proof (bnd b Hbn). apply (sgn_lt _ _ (cmp_n (b * (BUCKET + 1)) ltac:(lia))).
      specialize (HL b ltac:(lia)). fold (T (b * (BUCKET + 1))) in HL. lia. }
    assert (HR' : forall b, (lo <= Z.of_nat b)%Z -> b < nb -> c (b * (BUCKET + 1)) <> Lt).
    { intros b Hb Hbn Hc. pose proof (bnd b Hbn). apply (sgn_lt _ _ (cmp_n (b * (BUCKET + 1)) ltac:(lia))) in Hc.
      specialize (HR b ltac:(lia)). fold (T (b * (BUCKET + 1))) in HR. lia. }
    destruct (Nat.eqb_spec (Z.to_nat lo) nb) as [Elo|Nlo].
    { exists (Z.to_nat (lo - 1)), (Z.to_nat (lo - 1)). split; [reflexivity|]. split; [lia|].
      split; [right; left; apply HL'; lia|]. split; [left; lia|]. split; [left; lia|left; lia]. }
    set (lft := if (lo =? 0)%Z then 0 else
                if (byte_range_compare (T (Z.to_nat lo * (BUCKET + 1))) p =? 0)%Z then Z.to_nat lo else Z.to_nat (lo - 1)).
    assert (Elft : (if (lo =? 0)%Z then Ok 0
                    else do h0 <- fc_header d (Z.to_nat lo);
                         Ok (if (byte_range_compare h0 p =? 0)%Z then Z.to_nat lo else Z.to_nat (lo - 1))) = Ok lft).
    { subst lft. destruct (Z.eqb_spec lo 0); [reflexivity|].
      rewrite (lay_header _ _ _ _ L) by (fold n; fold nb; lia). reflexivity. }
    rewrite Elft. cbn [bind].
    assert (Hlft : lft < nb /\ (T (lft * (BUCKET + 1)) = p \/ c (lft * (BUCKET + 1)) = Lt \/ lft = 0) /\
                   (lft = nb - 1 \/ c ((lft + 1) * (BUCKET + 1)) <> Lt) ).
    { subst lft. destruct (Z.eqb_spec lo 0) as [->|Hne0].
      - split; [lia|]. split; [now right; right|].
        destruct (Nat.eq_dec nb 1); [left; lia|right]. apply HR'; lia.
      - pose proof (bnd (Z.to_nat lo) ltac:(lia)) as Hbd.
        destruct (Z.eqb_spec (byte_range_compare (T (Z.to_nat lo * (BUCKET + 1))) p) 0) as [Ez|Ez].
        + apply (cmp_full (Z.to_nat lo * (BUCKET + 1)) ltac:(lia)) in Ez.
          split; [lia|]. split; [now left|].
          destruct (Nat.eq_dec (Z.to_nat lo) (nb - 1)); [left; lia|right]. apply HR'; lia.
        + split; [lia|]. split; [right; left; apply HL'; lia|].
          right. replace (Z.to_nat (lo - 1) + 1) with (Z.to_nat lo) by lia. apply HR'; lia. }
    destruct Hlft as (Hl1 & Hl2 & Hl3).
    destruct (Nat.eqb_spec lft (nb - 1)) as [Ee|Ne].
    { cbn [bind]. exists lft, lft. repeat split; auto; lia. }
    destruct Hl3 as [Hl3|Hl3]; [lia|].
    pose proof (bnd (lft + 1) ltac:(lia)) as Hbd1.
    rewrite (lay_header _ _ _ _ L) by (fold n; fold nb; lia). cbn [bind].
    fold (T ((lft + 1) * (BUCKET + 1))). pose proof (cmp_n ((lft + 1) * (BUCKET + 1)) ltac:(lia)) as S1.
    destruct (Z.gtb_spec (byte_range_compare_n (T ((lft + 1) * (BUCKET + 1))) p (length p)) 0) as [Hg|Hg].
    { assert (c ((lft + 1) * (BUCKET + 1)) = Gt) by (apply (sgn_gt _ _ S1); lia).
      exists lft, lft. repeat split; auto; lia. }
    assert (Hc1 : c ((lft + 1) * (BUCKET + 1)) = Eq).
    { destruct (c ((lft + 1) * (BUCKET + 1))) eqn:Ec; auto; [congruence|]. cbn in S1. lia. }
    destruct (bsearch_ok (fc_header d) (fun b => nth (b * (BUCKET + 1)) terms []) nb (lay_header _ _ _ _ L)
                (fun cmp => negb (cmp <=? 0)%Z) (fun h => byte_range_compare_n h p (length p)) (Z.of_nat lft))
      as (lo2 & mi2 & cmp2 & h2 & E2 & Hlo2 & HL2 & HR2 & _); [lia| |].
    { intros i j Hij _ Hi. cbv beta in *. fold (T (i * (BUCKET + 1))) (T (j * (BUCKET + 1))) in *.
      pose proof (bnd j ltac:(lia)).
      pose proof (cmp_n (i * (BUCKET + 1)) ltac:(lia)) as Si. pose proof (cmp_n (j * (BUCKET + 1)) ltac:(lia)) as Sj.
      destruct (Z.leb_spec (byte_range_compare_n (T (i * (BUCKET + 1))) p (length p)) 0) as [|Hi']; [discriminate|].
      assert (Hci : c (i * (BUCKET + 1)) = Gt) by (apply (sgn_gt _ _ Si); lia).
      pose proof (c_gt (i * (BUCKET + 1)) (j * (BUCKET + 1)) ltac:(lia) Hci) as Hc.
      apply (sgn_gt _ _ Sj) in Hc. destruct (Z.leb_spec (byte_range_compare_n (T (j * (BUCKET + 1))) p (length p)) 0); [lia|reflexivity]. }
    rewrite E2. cbn [bind]. cbv beta in *.
    assert (Hin : (Z.of_nat (lft + 1) < lo2)%Z).
    { destruct (Z.lt_ge_cases (Z.of_nat (lft + 1)) lo2) as [|Hge]; [assumption|].
      specialize (HR2 (lft + 1) ltac:(lia)). fold (T ((lft + 1) * (BUCKET + 1))) in HR2.
      destruct (Z.leb_spec (byte_range_compare_n (T ((lft + 1) * (BUCKET + 1))) p (length p)) 0); [discriminate|lia]. }
    exists lft, (Z.to_nat (lo2 - 1)). split; [reflexivity|]. split; [lia|].
    split; [exact Hl2|]. split; [now right|]. split.
    - right. pose proof (bnd (Z.to_nat (lo2 - 1)) ltac:(lia)) as Hbd2.
      pose proof (cmp_n (Z.to_nat (lo2 - 1) * (BUCKET + 1)) ltac:(lia)) as S2.
      specialize (HL2 (Z.to_nat (lo2 - 1)) ltac:(lia)). fold (T (Z.to_nat (lo2 - 1) * (BUCKET + 1))) in HL2.
      destruct (c (Z.to_nat (lo2 - 1) * (BUCKET + 1))) eqn:Ec; auto.
      + exfalso. rewrite (c_lt ((lft + 1) * (BUCKET + 1)) (Z.to_nat (lo2 - 1) * (BUCKET + 1))) in Hc1; [discriminate|lia|assumption].
      + exfalso. cbn in S2.
        destruct (Z.leb_spec (byte_range_compare_n (T (Z.to_nat (lo2 - 1) * (BUCKET + 1))) p (length p)) 0); [lia|discriminate].
    - destruct (Z.eq_dec lo2 (Z.of_nat nb)) as [->|Hne2]; [left; lia|right].
      replace (Z.to_nat (lo2 - 1) + 1) with (Z.to_nat lo2) by lia.
      pose proof (bnd (Z.to_nat lo2) ltac:(lia)) as Hbd2.
      apply (sgn_gt _ _ (cmp_n (Z.to_nat lo2 * (BUCKET + 1)) ltac:(lia))).
      specialize (HR2 (Z.to_nat lo2) ltac:(lia)). fold (T (Z.to_nat lo2 * (BUCKET + 1))) in HR2.
      destruct (Z.leb_spec (byte_range_compare_n (T (Z.to_nat lo2 * (BUCKET + 1))) p (length p)) 0); [discriminate|lia].
  Qed.

  (** left_locate: first string of the bucket (header excluded) that starts with p. *)
  Lemma left_locate_ok b dec : b < nb -> length dec = 2 * MAX_CHARS ->
    exists o dec', fc_left_locate d p (T (b * (BUCKET + 1))) b dec = Ok (o, dec') /\ length dec' = 2 * MAX_CHARS /\
      1 <= o <= bsz n b + 1 /\ (o <= bsz n b -> c (b * (BUCKET + 1) + o) = Eq) /\
      (forall j, 1 <= j < o -> c (b * (BUCKET + 1) + j) <> Eq).
  Proof.
    intros Hb Hdec.
    set (test := fun (i : nat) (s : list N) => if (byte_range_compare_n s p (length p) =? 0)%Z then Some i else None).
    destruct (fc_scan_bucket_ok d terms b test (fun m => m + 1) dec L W Hb ltac:(lia)) as (dec' & E & Hl).
    fold n in E. set (ss := firstn (bsz n b) (skipn (b * (BUCKET + 1) + 1) terms)) in *.
    assert (Hss : length ss = bsz n b) by (apply bucket_strs_len; auto using Hn).
    assert (Hnth : forall j, j < bsz n b -> nth_error ss j = Some (T (b * (BUCKET + 1) + 1 + j))).
    { intros j Hj. apply (nth_error_nth_iff ss j []). rewrite Hss. split; [exact Hj|].
      subst ss. now rewrite bucket_strs_nth. }
    pose proof (bnd b Hb) as Hbd.
    assert (Htest : forall j i, j < bsz n b -> test i (T (b * (BUCKET + 1) + 1 + j)) = if match c (b * (BUCKET + 1) + 1 + j) with Eq => true | _ => false end then Some i else None).
    { intros j i Hj. pose proof (cmp_n (b * (BUCKET + 1) + 1 + j) ltac:(lia)) as S1. unfold test.
      destruct (Z.eqb_spec (byte_range_compare_n (T (b * (BUCKET + 1) + 1 + j)) p (length p)) 0) as [Ez|Nz];
        destruct (c (b * (BUCKET + 1) + 1 + j)); cbn in S1; try reflexivity; lia. }
    unfold fc_left_locate. fold test. unfold T. rewrite E.
    do 2 eexists. split; [reflexivity|]. split; [lia|].
    destruct (pure_scan_spec test (bsz n b + 1) 1 ss) as [(j & s & r & Hj & Ht & Hr & Hbef)|[Hr Hall]]; rewrite Hr.
    - assert (Hjb : j < bsz n b) by (rewrite <- Hss; apply nth_error_Some; congruence).
      rewrite (Hnth j Hjb) in Hj. injection Hj as <-. rewrite Htest in Ht by exact Hjb.
      destruct (c (b * (BUCKET + 1) + 1 + j)) eqn:Ec; try discriminate. injection Ht as <-.
      split; [lia|]. split.
      + intros _. rewrite <- Ec. f_equal. lia.
      + intros j' Hj' Hc'. specialize (Hbef (j' - 1) _ ltac:(lia) (Hnth (j' - 1) ltac:(lia))).
        rewrite Htest in Hbef by lia. replace (b * (BUCKET + 1) + 1 + (j' - 1)) with (b * (BUCKET + 1) + j') in Hbef by lia.
        rewrite Hc' in Hbef. discriminate.
    - split; [lia|]. split; [lia|].
      intros j' Hj' Hc'. specialize (Hall (j' - 1) _ (Hnth (j' - 1) ltac:(lia))).
      rewrite Htest in Hall by lia. replace (b * (BUCKET + 1) + 1 + (j' - 1)) with (b * (BUCKET + 1) + j') in Hall by lia.
      rewrite Hc' in Hall. discriminate.
  Qed.

  (** right_locate: last string of the bucket that is not after the p block (the header is assumed fine). *)
  Lemma right_locate_ok b dec : b < nb -> length dec = 2 * MAX_CHARS ->
    exists o dec', fc_right_locate d p (T (b * (BUCKET + 1))) b dec = Ok (o, dec') /\ length dec' = 2 * MAX_CHARS /\
      o <= bsz n b /\ (o < bsz n b -> c (b * (BUCKET + 1) + o + 1) = Gt) /\
      (forall j, 1 <= j <= o -> c (b * (BUCKET + 1) + j) <> Gt).
  Proof.
    intros Hb Hdec.
    set (test := fun (i : nat) (s : list N) => if (byte_range_compare_n s p (length p) >? 0)%Z then Some (i - 1) else None).
    destruct (fc_scan_bucket_ok d terms b test (fun m => m) dec L W Hb ltac:(lia)) as (dec' & E & Hl).
    fold n in E. set (ss := firstn (bsz n b) (skipn (b * (BUCKET + 1) + 1) terms)) in *.
    assert (Hss : length ss = bsz n b) by (apply bucket_strs_len; auto using Hn).
    assert (Hnth : forall j, j < bsz n b -> nth_error ss j = Some (T (b * (BUCKET + 1) + 1 + j))).
    { intros j Hj. apply (nth_error_nth_iff ss j []). rewrite Hss. split; [exact Hj|].
      subst ss. now rewrite bucket_strs_nth. }
    pose proof (bnd b Hb) as Hbd.
    assert (Htest : forall j i, j < bsz n b -> test i (T (b * (BUCKET + 1) + 1 + j)) = if match c (b * (BUCKET + 1) + 1 + j) with Gt => true | _ => false end then Some (i - 1) else None).
    { intros j i Hj. pose proof (cmp_n (b * (BUCKET + 1) + 1 + j) ltac:(lia)) as S1. unfold test.
      destruct (Z.gtb_spec (byte_range_compare_n (T (b * (BUCKET + 1) + 1 + j)) p (length p)) 0) as [Ez|Nz];
        destruct (c (b * (BUCKET + 1) + 1 + j)); cbn in S1; try reflexivity; lia. }
    unfold fc_right_locate. fold test. unfold T. rewrite E.
    do 2 eexists. split; [reflexivity|]. split; [lia|].
    destruct (pure_scan_spec test (bsz n b) 1 ss) as [(j & s & r & Hj & Ht & Hr & Hbef)|[Hr Hall]]; rewrite Hr.
    - assert (Hjb : j < bsz n b) by (rewrite <- Hss; apply nth_error_Some; congruence).
      rewrite (Hnth j Hjb) in Hj. injection Hj as <-. rewrite Htest in Ht by exact Hjb.
      destruct (c (b * (BUCKET + 1) + 1 + j)) eqn:Ec; try discriminate. injection Ht as <-.
      split; [lia|]. split.
      + intros _. rewrite <- Ec. f_equal. lia.
      + intros j' Hj' Hc'. specialize (Hbef (j' - 1) _ ltac:(lia) (Hnth (j' - 1) ltac:(lia))).
        rewrite Htest in Hbef by lia. replace (b * (BUCKET + 1) + 1 + (j' - 1)) with (b * (BUCKET + 1) + j') in Hbef by lia.
        rewrite Hc' in Hbef. discriminate.
    - split; [lia|]. split; [lia|].
      intros j' Hj' Hc'. specialize (Hall (j' - 1) _ (Hnth (j' - 1) ltac:(lia))).
      rewrite Htest in Hall by lia. replace (b * (BUCKET + 1) + 1 + (j' - 1)) with (b * (BUCKET + 1) + j') in Hall by lia.
      rewrite Hc' in Hall. discriminate.
  Qed.

  (** Exact, including F1. *)
  Lemma locate_prefix_ne_ok dl dr :
    length dl = 2 * MAX_CHARS -> length dr = 2 * MAX_CHARS ->
    exists r dl' dr', fc_locate_prefix d p dl dr = Ok (r, dl', dr') /\
      length dl' = 2 * MAX_CHARS /\ length dr' = 2 * MAX_CHARS /\
      match r with
      | Some (a, b) => exact_range n (fun i => found_by (T 0) p (T i)) a b
      | None => forall i, i < n -> ~ found_by (T 0) p (T i)
      end.
  Proof.
    intros Hdl Hdr.
    destruct locate_buckets_ok as (bb & be & E & Hbb & HA & HB & HC & HD).
    unfold fc_locate_prefix.
    destruct (Nat.eqb_spec (length p) 0) as [El|_]; [destruct p; [congruence|discriminate]|].
    rewrite E. cbn [bind].
    rewrite (lay_header _ _ _ _ L bb) by (fold n; fold nb; lia).
    rewrite (lay_header _ _ _ _ L be) by (fold n; fold nb; lia). cbn [bind].
    fold (T (bb * (BUCKET + 1))) (T (be * (BUCKET + 1))).
    pose proof (bnd bb ltac:(lia)) as Hbdb. pose proof (bnd be ltac:(lia)) as Hbde.
    destruct (right_locate_ok be dr ltac:(lia) Hdr) as (o' & dr' & Er & Hdr' & Ho' & HoG & HoN).
    (* p_begin *)
    assert (Hbegin : exists pb dl',
       (if negb (byte_range_compare (T (bb * (BUCKET + 1))) p =? 0)%Z then
          do (o, dl') <- fc_left_locate d p (T (bb * (BUCKET + 1))) bb dl;
          Ok (bb * (BUCKET + 1) + o, dl')
        else Ok (bb * (BUCKET + 1), dl)) = Ok (pb, dl') /\ length dl' = 2 * MAX_CHARS /\
       ((T (bb * (BUCKET + 1)) = p /\ pb = bb * (BUCKET + 1)) \/
        (T (bb * (BUCKET + 1)) <> p /\ exists o, pb = bb * (BUCKET + 1) + o /\ 1 <= o <= bsz n bb + 1 /\
            (o <= bsz n bb -> c (bb * (BUCKET + 1) + o) = Eq) /\ (forall j, 1 <= j < o -> c (bb * (BUCKET + 1) + j) <> Eq)))).
    { destruct (Z.eqb_spec (byte_range_compare (T (bb * (BUCKET + 1))) p) 0) as [Ez|Nz]; cbn [negb].
      - apply (cmp_full (bb * (BUCKET + 1)) ltac:(lia)) in Ez. do 2 eexists. split; [reflexivity|].
        split; [assumption|]. left. split; [assumption|lia].
      - destruct (left_locate_ok bb dl ltac:(lia) Hdl) as (o & dl' & El & Hdl' & Ho1 & Ho2 & Ho3).
        rewrite El. cbn [bind]. do 2 eexists. split; [reflexivity|]. split; [assumption|].
        right. split; [intros Hc; apply (cmp_full (bb * (BUCKET + 1)) ltac:(lia)) in Hc; lia|].
        exists o. repeat split; auto; lia. }
    destruct Hbegin as (pb & dl' & Eb & Hdl' & Hpb). rewrite Eb. cbn [bind]. rewrite Er. cbn [bind].
    set (pe := be * (BUCKET + 1) + o'). assert (Epe : pe = be * (BUCKET + 1) + o') by (subst pe; lia).
    (* facts *)
    assert (Hc_pref : forall i, c i = Eq <-> is_prefix p (T i)) by (intros i; apply pcmp_eq).
    assert (HQ : forall i, i < n -> (found_by (T 0) p (T i) <-> c i = Eq /\ (i = 0 -> T 0 = p))).
    { intros i Hi. unfold found_by. rewrite Hc_pref. split; intros [A B]; (split; [exact A|]).
      - intros ->. destruct (B eq_refl); [congruence|assumption].
      - intros E0. right. destruct (Nat.eq_dec i 0) as [->|Hne]; [auto|]. exfalso.
        pose proof (T_lt 0 i ltac:(lia)) as Hlt. rewrite E0 in Hlt. exact (lex_irrefl _ Hlt). }
    assert (Hself : T (bb * (BUCKET + 1)) = p -> c (bb * (BUCKET + 1)) = Eq).
    { intros Hs. apply Hc_pref. rewrite Hs. apply prefix_refl. }
    assert (Hbelow : T (bb * (BUCKET + 1)) = p -> forall i, i < bb * (BUCKET + 1) -> c i = Lt).
    { intros Hs i Hi. apply pcmp_lt. rewrite <- Hs. apply T_lt. lia. }
    assert (Hpe_after : forall i, pe < i < n -> c i = Gt).
    { intros i Hi.
      assert (Hstep : exists i0, pe < i0 <= i /\ c i0 = Gt).
      { destruct (Nat.lt_ge_cases o' (bsz n be)) as [Hlt|Hge].
        - exists (be * (BUCKET + 1) + o' + 1). split; [lia|]. now apply HoG.
        - destruct HD as [HD|HD].
          + exfalso. pose proof last_bnd as Hlast. rewrite <- HD in Hlast. lia.
          + exists ((be + 1) * (BUCKET + 1)). split; [|assumption].
            destruct (Nat.eq_dec be (nb - 1)) as [He|He].
            * exfalso. pose proof last_bnd as Hlast. rewrite <- He in Hlast. lia.
            * rewrite bsz_full in * by lia. lia. }
      destruct Hstep as (i0 & Hi0 & Hc0). apply c_gt with i0; [lia|assumption]. }
    (* is there a match at all? *)
    destruct (Nat.ltb_spec pe pb) as [Hinv|Hval].
    - do 3 eexists. split; [reflexivity|]. split; [assumption|]. split; [assumption|].
      cbv iota beta. intros i Hi Hpre. apply (HQ i Hi) in Hpre as [Hpre H0].
      assert (i <= pe). { destruct (Nat.le_gt_cases i pe); auto. rewrite Hpe_after in Hpre by lia. discriminate. }
      destruct Hpb as [[Hs Hpb]|[Hs (o & Hpb & Ho1 & Ho2 & Ho3)]].
      + rewrite (Hbelow Hs i) in Hpre by lia. discriminate.
      + destruct (Nat.lt_trichotomy i (bb * (BUCKET + 1))) as [Hlt|[Heq|Hgt]].
        * destruct HA as [HA|[HA|HA]]; [congruence| |lia].
          rewrite (c_lt i (bb * (BUCKET + 1))) in Hpre; [discriminate|lia|assumption].
        * subst i. destruct HA as [HA|[HA|HA]]; [congruence|congruence|].
          subst bb. apply Hs. exact (H0 eq_refl).
        * apply (Ho3 (i - bb * (BUCKET + 1))); [lia|]. replace (bb * (BUCKET + 1) + (i - bb * (BUCKET + 1))) with i by lia. assumption.
    - assert (Hpb_eq : c pb = Eq /\ (pb = 0 -> T 0 = p) /\ (forall i, i < pb -> ~ (c i = Eq /\ (i = 0 -> T 0 = p)))).
      { destruct Hpb as [[Hs Hpb]|[Hs (o & Hpb & Ho1 & Ho2 & Ho3)]].
        - subst pb. split; [now apply Hself|]. split; [intros H0; rewrite H0 in Hs; exact Hs|]. intros i Hi [Hc _]. rewrite (Hbelow Hs i) in Hc by lia. discriminate.
        - assert (Hbl : forall i, i < pb -> ~ (c i = Eq /\ (i = 0 -> T 0 = p))).
          { intros i Hi [Hc H0].
            destruct (Nat.lt_trichotomy i (bb * (BUCKET + 1))) as [Hlt|[Heq|Hgt]].
            - destruct HA as [HA|[HA|HA]]; [congruence| |lia].
              rewrite (c_lt i (bb * (BUCKET + 1))) in Hc; [discriminate|lia|assumption].
            - subst i. destruct HA as [HA|[HA|HA]]; [congruence|congruence|].
              subst bb. apply Hs. exact (H0 eq_refl).
            - apply (Ho3 (i - bb * (BUCKET + 1))); [lia|]. replace (bb * (BUCKET + 1) + (i - bb * (BUCKET + 1))) with i by lia. assumption. }
          split; [|split; [lia|assumption]].
          destruct (Nat.le_gt_cases o (bsz n bb)) as [Hle|Hgt].
          + rewrite Hpb. now apply Ho2.
          + (* all strings of bucket bb fail; the match must come from the next bucket *)
            assert (o = bsz n bb + 1) by lia.
            assert (bb < be).
            { destruct (Nat.eq_dec bb be) as [He|He]; [|lia]. subst be. lia. }
            assert (bb < nb - 1) by lia. rewrite bsz_full in * by lia.
            assert (Epb : pb = (bb + 1) * (BUCKET + 1)) by lia. rewrite Epb.
            destruct HC as [HC|HC]; [lia|].
            destruct HB as [HB|HB]; [lia|].
            destruct (c ((bb + 1) * (BUCKET + 1))) eqn:Ec; auto; [congruence|].
            exfalso. rewrite (c_gt ((bb + 1) * (BUCKET + 1)) (be * (BUCKET + 1))) in HC; [discriminate|lia|assumption]. }
      destruct Hpb_eq as (Hpb1 & Hpb0 & Hpb2).
      do 3 eexists. split; [reflexivity|]. split; [assumption|]. split; [assumption|].
      cbv iota beta. unfold exact_range. split; [lia|]. intros i Hi. rewrite (HQ i Hi). split.
      + intros Hr. split; [|intros ->; apply Hpb0; lia].
        destruct (c i) eqn:Ec; auto; exfalso.
        * rewrite (c_lt pb i) in Hpb1; [discriminate|lia|assumption].
        * (* c i = Gt with i <= pe *)
          assert (Hpe_ngt : c pe <> Gt).
          { rewrite Epe. destruct (Nat.eq_dec o' 0) as [->|Hno].
            - rewrite Nat.add_0_r. destruct HC as [HC|HC]; [|congruence]. subst be.
              intros Hgt. destruct Hpb as [[Hs _]|[Hs (o & Hpb & Ho1 & _)]]; [rewrite Hself in Hgt by assumption; discriminate|lia].
            - apply HoN. lia. }
          apply Hpe_ngt. apply c_gt with i; [lia|assumption].
      + intros [Hc H0]. split.
        * destruct (Nat.le_gt_cases pb i); auto. exfalso. now apply (Hpb2 i).
        * destruct (Nat.le_gt_cases i pe); auto. rewrite Hpe_after in Hc by lia. discriminate.
  Qed.
End LocatePrefix.

Lemma locate_prefix_all_ok d terms p dl dr :
  fc_layout d terms -> wf_vocab terms -> not_multiple (length terms) -> 
  length dl = 2 * MAX_CHARS -> length dr = 2 * MAX_CHARS ->
  exists r dl' dr', fc_locate_prefix d p dl dr = Ok (r, dl', dr') /\
    length dl' = 2 * MAX_CHARS /\ length dr' = 2 * MAX_CHARS /\
    match r with
    | Some (a, b) => exact_range (length terms) (fun i => found_by (nth 0 terms []) p (nth i terms [])) a b
    | None => forall i, i < length terms -> ~ found_by (nth 0 terms []) p (nth i terms [])
    end.
Proof.
  intros L W H17 Hdl Hdr. destruct p as [|x p].
  - unfold fc_locate_prefix. cbn [length Nat.eqb]. rewrite (lay_size _ _ _ _ L).
    do 3 eexists. split; [reflexivity|]. split; [assumption|]. split; [assumption|].
    cbv iota beta. destruct W as (_ & Hne & _).
    assert (0 < length terms) by (destruct terms; [congruence|cbn; lia]).
    unfold exact_range. split; [lia|]. intros i Hi. split; [intros _; split; [apply prefix_nil|now left]|lia].
  - apply locate_prefix_ne_ok; auto; discriminate.
Qed.

(** Whole-dictionary statements. *)
Lemma fc_dictionary_extract terms :
  wf_vocab terms -> not_multiple (length terms) ->
  exists d, fc_build terms = Ok d /\
    forall i t, nth_error terms i = Some t ->
    forall out base, base + 256 <= length out ->
    exists out', fc_extract d (i + 1) out base = Ok (length t, out') /\
      length out' = length out /\ firstn base out' = firstn base out /\
      firstn (length t) (skipn base out') = t.
Proof.
  intros W H17. destruct (fc_build_layout terms (proj1 (proj2 W))) as (d & E & L).
  exists d. split; [exact E|]. intros i t Hi out base Hout.
  apply (nth_error_nth_iff terms i []) in Hi as [Hi <-].
  pose proof (fc_extract_ok d terms (i + 1) out base L W H17 ltac:(lia) Hout) as H.
  replace (i + 1 - 1) with i in H by lia. exact H.
Qed.

Lemma fc_dictionary_locate terms :
  wf_vocab terms -> not_multiple (length terms) ->
  exists d, fc_build terms = Ok d /\
    forall t dec, length dec = 256 ->
    exists r dec', fc_locate d t dec = Ok (r, dec') /\ length dec' = 256 /\
      forall id, r = Some id <-> (1 <= id /\ nth_error terms (id - 1) = Some t).
Proof.
  intros W H17. destruct (fc_build_layout terms (proj1 (proj2 W))) as (d & E & L).
  exists d. split; [exact E|]. intros t dec Hdec.
  destruct (fc_locate_ok d terms t dec L W H17 Hdec) as (r & dec' & El & Hd & Hr).
  exists r, dec'. split; [exact El|]. split; [exact Hd|].
  intros id. destruct r as [id'|].
  - destruct Hr as [Hid' Hn']. split.
    + intros H. injection H as <-. split; [lia|].
      apply (nth_error_nth_iff terms _ []). split; [lia|assumption].
    + intros [Hid Hn]. apply (nth_error_nth_iff terms _ []) in Hn as [Hlt Hn]. f_equal.
      assert (id' - 1 = id - 1); [|lia].
      apply (lex_sorted_nth_inj terms _ _ []); [apply W|lia|lia|congruence].
  - split; [discriminate|]. intros [Hid Hn]. exfalso. apply Hr. eapply nth_error_In; eassumption.
Qed.

Lemma fc_dictionary_locate_prefix_exact terms :
  wf_vocab terms -> not_multiple (length terms) ->
  exists d, fc_build terms = Ok d /\
    forall p dl dr, length dl = 256 -> length dr = 256 ->
    exists r dl' dr', fc_locate_prefix d p dl dr = Ok (r, dl', dr') /\
      length dl' = 256 /\ length dr' = 256 /\
      match r with
      | Some (a, b) => exact_range (length terms) (fun i => found_by (nth 0 terms []) p (nth i terms [])) a b
      | None => forall i, i < length terms -> ~ found_by (nth 0 terms []) p (nth i terms [])
      end.
Proof.
  intros W H17. destruct (fc_build_layout terms (proj1 (proj2 W))) as (d & E & L).
  exists d. split; [exact E|]. intros p dl dr Hdl Hdr.
  apply locate_prefix_all_ok; assumption.
Qed.

(** When the first term does not strictly extend the prefix. *)
Lemma found_by_prefix first p t : (p <> [] -> is_prefix p first -> first = p) -> (found_by first p t <-> is_prefix p t).
Proof.
  intros H. unfold found_by. split; [tauto|]. intros Hp. split; [exact Hp|]. intros ->.
  destruct p as [|x p]; [now left|right]. apply H; [discriminate|exact Hp].
Qed.

Lemma fc_dictionary_locate_prefix terms :
  wf_vocab terms -> not_multiple (length terms) ->
  exists d, fc_build terms = Ok d /\
    forall p dl dr, length dl = 256 -> length dr = 256 ->
    (p <> [] -> is_prefix p (nth 0 terms []) -> nth 0 terms [] = p) ->
    exists r dl' dr', fc_locate_prefix d p dl dr = Ok (r, dl', dr') /\
      length dl' = 256 /\ length dr' = 256 /\
      match r with
      | Some (a, b) => exact_range (length terms) (fun i => is_prefix p (nth i terms [])) a b
      | None => forall i, i < length terms -> ~ is_prefix p (nth i terms [])
      end.
Proof.
  intros W H17. destruct (fc_dictionary_locate_prefix_exact terms W H17) as (d & E & H). exists d. split; [exact E|].
  intros p dl dr Hdl Hdr Hg. destruct (H p dl dr Hdl Hdr) as (r & dl' & dr' & E1 & L1 & L2 & Hr).
  exists r, dl', dr'. split; [exact E1|]. split; [exact L1|]. split; [exact L2|]. destruct r as [[a b]|].
  - destruct Hr as [Hab Hr]. split; [exact Hab|]. intros i Hi. rewrite (Hr i Hi). now apply found_by_prefix.
  - intros i Hi Hpre. apply (Hr i Hi). now apply found_by_prefix.
Qed.

End Bucket.

(** Refutations, by computation on small vocabularies. *)
Definition vocab17 : list (list N) := map (fun i => [N.of_nat i]) (seq 1 17).

(** Decision procedure used to establish well-formedness of concrete vocabularies. *)
Fixpoint lex_ltb (a b : list N) : bool :=
  match a, b with
  | [], _ :: _ => true
  | x :: a', y :: b' => (x <? y)%N || ((x =? y)%N && lex_ltb a' b')
  | _, _ => false
  end.
Lemma lex_ltb_lt a b : lex_ltb a b = true -> lex_lt a b.
Proof.
  revert b; induction a as [|x a IH]; intros [|y b]; cbn; intros H; try discriminate; [constructor|].
  apply orb_true_iff in H as [H|H].
  - apply lex_head. lia.
  - apply andb_true_iff in H as [H1 H2]. apply N.eqb_eq in H1 as ->. apply lex_tail. auto.
Qed.
Fixpoint lex_sortedb (ls : list (list N)) : bool :=
  match ls with
  | [] => true
  | a :: rest => match rest with [] => true | b :: _ => lex_ltb a b end && lex_sortedb rest
  end.
Lemma lex_sortedb_sorted ls : lex_sortedb ls = true -> lex_sorted ls.
Proof.
  induction ls as [|a ls IH]; cbn; intros H; [exact I|].
  apply andb_true_iff in H as [H1 H2]. split; [|auto].
  destruct ls; [exact I|]. now apply lex_ltb_lt.
Qed.
Definition wf_vocabb (terms : list (list N)) : bool :=
  lex_sortedb terms && negb (length terms =? 0) &&
  forallb (fun t => forallb (fun x => (0 <? x)%N) t && (0 <? length t) && (length t <=? 128)) terms.
Lemma wf_vocabb_wf terms : wf_vocabb terms = true -> wf_vocab terms.
Proof.
  unfold wf_vocabb. intros H. apply andb_true_iff in H as [H H3]. apply andb_true_iff in H as [H1 H2].
  split; [now apply lex_sortedb_sorted|]. split; [destruct terms; [discriminate|congruence]|].
  apply Forall_forall. intros t Ht. rewrite forallb_forall in H3. specialize (H3 t Ht).
  apply andb_true_iff in H3 as [H3 H5]. apply andb_true_iff in H3 as [H3 H4].
  split; [|lia]. apply Forall_forall. intros x Hx. rewrite forallb_forall in H3. specialize (H3 x Hx). lia.
Qed.

Lemma extract_multiple_of_17_wrong :
  exists terms d i t, wf_vocab terms /\ fc_build terms = Ok d /\ nth_error terms i = Some t /\
    fc_extract d (i + 1) (repeat 0%N 256) 0 = UB.
Proof.
  exists vocab17. eexists. exists 1, [2%N].
  split; [apply wf_vocabb_wf; vm_compute; reflexivity|].
  split; [vm_compute; reflexivity|]. split; [reflexivity|].
  vm_compute. reflexivity.
Qed.

Lemma locate_multiple_of_17_wrong :
  exists terms d t, wf_vocab terms /\ fc_build terms = Ok d /\ In t terms /\
    exists dec', fc_locate d t (repeat 0%N 256) = Ok (None, dec').
Proof.
  exists vocab17. eexists. exists [2%N].
  split; [apply wf_vocabb_wf; vm_compute; reflexivity|].
  split; [vm_compute; reflexivity|]. split; [right; now left|].
  eexists. vm_compute. reflexivity.
Qed.

(** F1: terms apple, apply, banana; prefix "app" misses "apple", and the
    dictionary [apple] reports no match for "app". *)
Definition s_apple : list N := [97;112;112;108;101]%N.
Definition s_apply : list N := [97;112;112;108;121]%N.
Definition s_banana : list N := [98;97;110;97;110;97]%N.
Definition s_app : list N := [97;112;112]%N.

Lemma locate_prefix_first_wrong :
  exists terms d p, wf_vocab terms /\ not_multiple_of_17 (length terms) /\ nul_free p /\
    fc_build terms = Ok d /\
    is_prefix p (nth 0 terms []) /\ is_prefix p (nth 1 terms []) /\
    exists dl' dr', fc_locate_prefix d p (repeat 0%N 256) (repeat 0%N 256) = Ok (Some (1, 1), dl', dr').
Proof.
  exists [s_apple; s_apply; s_banana]. eexists. exists s_app.
  split; [apply wf_vocabb_wf; vm_compute; reflexivity|].
  split; [vm_compute; discriminate|].
  split; [repeat constructor|].
  split; [vm_compute; reflexivity|].
  split; [exists [108;101]%N; reflexivity|]. split; [exists [108;121]%N; reflexivity|].
  do 2 eexists. vm_compute. reflexivity.
Qed.

Lemma locate_prefix_only_term_wrong :
  exists terms d p, wf_vocab terms /\ not_multiple_of_17 (length terms) /\ nul_free p /\
    fc_build terms = Ok d /\ is_prefix p (nth 0 terms []) /\
    exists dl' dr', fc_locate_prefix d p (repeat 0%N 256) (repeat 0%N 256) = Ok (None, dl', dr').
Proof.
  exists [s_apple]. eexists. exists s_app.
  split; [apply wf_vocabb_wf; vm_compute; reflexivity|].
  split; [vm_compute; discriminate|].
  split; [repeat constructor|].
  split; [vm_compute; reflexivity|].
  split; [exists [108;101]%N; reflexivity|].
  do 2 eexists. vm_compute. reflexivity.
Qed.
