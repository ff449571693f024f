(** Correctness of integer_fc_dictionary. *)
From Verif Require Import Base S_Order S_Vocab S_Completions P_Order P_Compare M_Compare M_Fc M_IntFc P_FcGen.

Local Ltac lia := first [Lia.lia | Lia.nia].

Section Bucket.
  Context {bucket : bucket_size}.

(** ** Bytes of token ids *)
Lemma le32_value x : (x < 4294967296)%N ->
  (x mod 256 + 256 * (x / 256 mod 256 + 256 * (x / 65536 mod 256 + 256 * (x / 16777216 mod 256))) = x)%N.
Proof.
  intros H.
  assert (E1 : (x / 65536 = x / 256 / 256)%N) by (rewrite N.div_div by lia; reflexivity).
  assert (E2 : (x / 16777216 = x / 65536 / 256)%N) by (rewrite N.div_div by lia; reflexivity).
  pose proof (N.div_mod x 256 ltac:(lia)) as D1.
  pose proof (N.div_mod (x / 256) 256 ltac:(lia)) as D2. rewrite <- E1 in D2.
  pose proof (N.div_mod (x / 65536) 256 ltac:(lia)) as D3. rewrite <- E2 in D3.
  assert (x / 16777216 < 256)%N by (apply N.div_lt_upper_bound; lia).
  rewrite (N.mod_small (x / 16777216)) by assumption. lia.
Qed.

Lemma le32_length xs : length (flat_map le32 xs) = 4 * length xs.
Proof. induction xs as [|x xs IH]; [reflexivity|]. cbn [flat_map]. rewrite app_length, IH. cbn. lia. Qed.

Lemma words32_app xs n rest :
  Forall (fun x => x < 4294967296)%N xs ->
  words32 (length xs + n) (flat_map le32 xs ++ rest) = xs ++ words32 n rest.
Proof.
  induction xs as [|x xs IH]; intros H; [reflexivity|].
  inversion H; subst. cbn [length Nat.add flat_map words32 le32 app].
  rewrite IH by assumption. rewrite le32_value by assumption. reflexivity.
Qed.

Lemma words32_length n bs : 4 * n <= length bs -> length (words32 n bs) = n.
Proof.
  revert bs; induction n as [|n IH]; intros bs H; [reflexivity|].
  destruct bs as [|a [|b [|c [|d bs]]]]; cbn [length] in H; try lia.
  cbn [words32 length]. rewrite IH; [reflexivity|lia].
Qed.

Lemma words32_firstn n bs : words32 n (firstn (4 * n) bs) = words32 n bs.
Proof.
  revert bs; induction n as [|n IH]; intros bs; [reflexivity|].
  replace (4 * S n) with (S (S (S (S (4 * n))))) by lia.
  destruct bs as [|a [|b [|c [|d bs]]]]; try reflexivity. cbn [firstn words32]. now rewrite IH.
Qed.

Definition ifc_good (s : list N) : Prop := Forall (fun x => x < 4294967296)%N s /\ length s <= MAX_TERMS.

(** What is written for the logical (unterminated) completions. *)
Definition ifc_enc (prev s : list N) : list N :=
  let l := lcp s prev in
  [ N.of_nat l; N.of_nat (length s - l) ] ++ flat_map le32 (skipn l s).

Lemma ifc_decode_ok mem cur out base prev s rest :
  skipn cur mem = ifc_enc prev s ++ rest ->
  MAX_TERMS * 4 <= length rest ->
  ifc_good s -> ifc_good prev ->
  base + lcp s prev + MAX_TERMS <= length out ->
  firstn (length prev) (skipn base out) = prev ->
  exists out',
    ifc_decode mem cur out base = Ok (length s, lcp s prev, out') /\
    length out' = length out /\
    firstn base out' = firstn base out /\
    firstn (length s) (skipn base out') = s /\
    skipn (cur + (length s - lcp s prev) * 4 + 2) mem = rest.
Proof.
  intros Hmem Hrest [Hsb Hs] _ Hout Hprev. unfold MAX_TERMS in *.
  set (l := lcp s prev) in *.
  assert (Hl : l <= length s) by apply lcp_le_l.
  assert (Hl2 : l <= length prev) by apply lcp_le_r.
  unfold ifc_enc in Hmem. fold l in Hmem. cbn [app] in Hmem.
  set (suf := skipn l s) in *.
  assert (Hsuf : length suf = length s - l) by apply skipn_length.
  assert (Hsufb : Forall (fun x => x < 4294967296)%N suf).
  { subst suf. rewrite <- (firstn_skipn l s) in Hsb. apply Forall_app in Hsb. tauto. }
  assert (Hlen : length mem = cur + (2 + (4 * (length s - l) + length rest))).
  { assert (length (skipn cur mem) = 2 + (4 * (length s - l) + length rest)) as E.
    { rewrite Hmem. cbn [length]. rewrite app_length, le32_length. lia. }
    rewrite skipn_length in E. lia. }
  unfold ifc_decode.
  assert (E0 : get mem cur = Ok (N.of_nat l)).
  { apply get_ok. rewrite <- (Nat.add_0_r cur), <- nth_error_skipn, Hmem. reflexivity. }
  assert (E1 : get mem (cur + 1) = Ok (N.of_nat (length s - l))).
  { apply get_ok. rewrite <- nth_error_skipn, Hmem. reflexivity. }
  rewrite E0, E1. cbn [bind].
  assert (E2 : skipn (cur + 2) mem = flat_map le32 suf ++ rest).
  { rewrite Nat.add_comm, <- skipn_skipn, Hmem. reflexivity. }
  rewrite slice_ok by (unfold MAX_TERMS; lia). cbn [bind]. rewrite E2.
  replace (MAX_TERMS * 4) with (4 * MAX_TERMS) by lia. rewrite words32_firstn.
  replace MAX_TERMS with (length suf + (64 - length suf)) by (unfold MAX_TERMS; lia).
  rewrite words32_app by assumption.
  set (garb := words32 (64 - length suf) rest).
  assert (Hg : length garb = 64 - length suf) by (apply words32_length; lia).
  rewrite Nat2N.id.
  rewrite blit_ok by (rewrite app_length; lia). cbn [bind].
  replace (N.to_nat ((N.of_nat l + N.of_nat (length s - l)) mod 256)) with (length s)
    by (rewrite N.mod_small; lia).
  eexists. split; [reflexivity|].
  split; [rewrite !app_length, firstn_length, skipn_length; lia|].
  assert (Efb : length (firstn (base + l) out) = base + l) by (rewrite firstn_length; lia).
  split.
  { rewrite firstn_app, Efb. replace (base - (base + l)) with 0 by lia. cbn [firstn].
    rewrite app_nil_r, firstn_firstn. f_equal. lia. }
  split.
  { rewrite skipn_app, Efb. replace (base - (base + l)) with 0 by lia. cbn [skipn].
    replace (skipn base (firstn (base + l) out)) with (firstn l (skipn base out)).
    2:{ rewrite firstn_skipn_comm. reflexivity. }
    assert (El : firstn l (skipn base out) = firstn l prev).
    { rewrite <- Hprev. rewrite firstn_firstn. f_equal. lia. }
    rewrite El.
    assert (Elp : length (firstn l prev) = l) by (rewrite firstn_length; lia).
    rewrite firstn_app, Elp. rewrite (firstn_all2 (firstn l prev)) by lia.
    rewrite <- !app_assoc. rewrite firstn_app.
    rewrite (firstn_all2 suf) by lia. replace (length s - l - length suf) with 0 by lia.
    cbn [firstn]. rewrite app_nil_r.
    subst l suf. rewrite <- lcp_firstn. apply firstn_skipn. }
  { replace (cur + (length s - l) * 4 + 2) with ((length s - l) * 4 + (cur + 2)) by lia.
    rewrite <- skipn_skipn, E2. rewrite skipn_app, le32_length.
    rewrite (skipn_all2 (flat_map le32 suf)) by (rewrite le32_length; lia).
    replace ((length s - l) * 4 - 4 * length suf) with 0 by lia. reflexivity. }
Qed.

(** ** What the builder writes for terminated completions *)
Lemma lcp_terminated p s :
  Forall (fun x => 0 < x)%N p -> Forall (fun x => 0 < x)%N s -> p <> s ->
  lcp (s ++ [0%N]) (p ++ [0%N]) = lcp s p.
Proof.
  revert p; induction s as [|x s IH]; intros p Hp Hs Hne.
  - destruct p as [|y p]; [congruence|]. inversion Hp; subst.
    cbn [app lcp]. destruct (N.eqb_spec 0 y); [lia|reflexivity].
  - inversion Hs; subst. destruct p as [|y p]; cbn [app lcp].
    + destruct (N.eqb_spec x 0); [lia|reflexivity].
    + destruct (N.eqb_spec x y) as [->|]; [|reflexivity]. inversion Hp; subst.
      rewrite IH; auto. congruence.
Qed.

Definition ifc_rel (p s : list N) : Prop := wf_completion p /\ wf_completion s /\ lex_lt p s.

Lemma wf_completion_pos c : wf_completion c -> Forall (fun x => 0 < x)%N c.
Proof. intros [H _]. revert H. apply Forall_impl. cbn. lia. Qed.

Lemma wf_completion_good c : wf_completion c -> ifc_good c.
Proof. intros [H L]. split; [|unfold MAX_TERMS; lia]. revert H. apply Forall_impl. cbn. lia. Qed.

Lemma ifc_write_ok p s :
  ifc_rel p s -> ifc_write (terminated p) (terminated s) = Ok (ifc_enc p s).
Proof.
  intros (Hp & Hs & Hlt). unfold ifc_write, terminated.
  rewrite lcp_terminated by (auto using wf_completion_pos; intros ->; exact (lex_irrefl _ Hlt)).
  destruct Hs as [_ Hs]. pose proof (lcp_le_l s p) as Hl.
  rewrite app_length. cbn [length]. replace (length s + 1 - 1) with (length s) by lia.
  rewrite Nat.mod_small by lia. destruct (Nat.ltb_spec (length s) (lcp s p)); [lia|].
  unfold ifc_enc. rewrite !N.mod_small by lia.
  do 3 f_equal. rewrite skipn_app. replace (lcp s p - length s) with 0 by lia. cbn [skipn].
  rewrite firstn_app, skipn_length, Nat.sub_diag. cbn [firstn]. rewrite app_nil_r.
  apply firstn_all2. rewrite skipn_length. lia.
Qed.

Lemma ifc_write_header_ok h : ifc_write_header (terminated h) = h.
Proof.
  unfold ifc_write_header, terminated. rewrite app_length. cbn [length].
  replace (length h + 1 - 1) with (length h) by lia.
  rewrite firstn_app, Nat.sub_diag, firstn_all. cbn. apply app_nil_r.
Qed.

Definition ifc_layout : fcd -> list (list N) -> Prop := layout ifc_enc (MAX_TERMS * 4).

Lemma wf_completions_adj cs : lex_sorted cs -> Forall wf_completion cs -> adj ifc_rel cs.
Proof.
  induction cs as [|a cs IH]; intros Hs Hw; [exact I|].
  destruct cs as [|b cs]; [exact I|]. destruct Hs as [H1 H2].
  inversion Hw as [|? ? Ha Hw']; subst. inversion Hw' as [|? ? Hb _]; subst.
  split; [split; [exact Ha|split; [exact Hb|exact H1]]|]. apply IH; assumption.
Qed.

Lemma ifc_build_layout cs :
  wf_completions cs -> exists d, ifc_build (map terminated cs) = Ok d /\ ifc_layout d cs.
Proof.
  intros (Hs & Hne & Hw).
  destruct (build_layout ifc_enc (MAX_TERMS * 4) terminated ifc_rel ifc_write ifc_write_header cs)
    as (d & E & L); auto using ifc_write_ok, ifc_write_header_ok, wf_completions_adj.
  exists d. split; [|exact L]. unfold ifc_build. rewrite map_length. exact E.
Qed.

Lemma ifc_good_len s : ifc_good s -> length s <= MAX_TERMS.
Proof. intros [_ H]. exact H. Qed.
Lemma MT256 : MAX_TERMS < 256.
Proof. unfold MAX_TERMS. lia. Qed.
Lemma wf_completions_good cs : Forall wf_completion cs -> Forall ifc_good cs.
Proof. apply Forall_impl. apply wf_completion_good. Qed.

(** ** extract *)
Lemma ifc_extract_ok d cs id out :
  ifc_layout d cs -> wf_completions cs -> not_multiple (length cs) ->
  id < length cs -> 2 * MAX_TERMS <= length out ->
  let s := nth id cs [] in
  exists out', ifc_extract d id out = Ok (length s, out') /\
     length out' = length out /\ firstn (length s) out' = s.
Proof.
  intros L (Hsort & Hne & Hwf) H17 Hid Hout s.
  destruct (extract_at_ok ifc_enc ifc_decode 4 MAX_TERMS (MAX_TERMS * 4) ifc_good ifc_good_len
              MT256 ifc_decode_ok d cs id out 0) as (out' & E & H1 & _ & H2);
    auto using wf_completions_good.
  exists out'. auto.
Qed.

(** ** Searching *)
Section Search.
  Variable d : fcd.
  Variable cs : list (list N).
  Hypothesis L : ifc_layout d cs.
  Hypothesis W : wf_completions cs.
  Hypothesis H17 : not_multiple (length cs).

  Let n := length cs.
  Let nb := fc_num_buckets n.
  Let T (i : nat) := nth i cs [].

  Local Lemma iHn : 0 < n.
  Proof. subst n. destruct W as (_ & Hne & _). destruct cs; [congruence|cbn; lia]. Qed.
  Local Lemma iHnb : 0 < nb.
  Proof. apply num_buckets_pos. apply iHn. Qed.
  Local Lemma ibnd b : b < nb -> b * (BUCKET + 1) + bsz n b < n.
  Proof. intros Hb. pose proof (nb_bound n b iHn Hb). lia. Qed.
  Local Lemma ilast : (nb - 1) * (BUCKET + 1) + bsz n (nb - 1) + 1 = n.
  Proof.
    pose proof (num_buckets_total n H17) as E. unfold bsz. fold nb in E |- *. rewrite Nat.eqb_refl.
    lia.
  Qed.
  Local Lemma ifull b : b < nb - 1 -> bsz n b = BUCKET.
  Proof. intros H. unfold bsz. fold nb. destruct (Nat.eqb_spec b (nb - 1)); [lia|reflexivity]. Qed.
  Local Lemma iT_lt i j : i < j < n -> lex_lt (T i) (T j).
  Proof. intros H. destruct W as (Hs & _). now apply lex_sorted_nth. Qed.

  (** Scans of bucket [b]: position [j] (1-based) is completion [b * (BUCKET + 1) + j]. *)
  Lemma ifc_scan_spec {R} b (test : nat -> list N -> option R) stop dec :
    b < nb -> length dec = 2 * MAX_TERMS ->
    exists dec', length dec' = 2 * MAX_TERMS /\
     ((exists j r, 1 <= j <= bsz n b /\ test j (T (b * (BUCKET + 1) + j)) = Some r /\
         fc_scan_bucket (ifc_decode (fc_bkts d)) 4 d (T (b * (BUCKET + 1))) b test stop dec = Ok (r, dec') /\
         forall j', 1 <= j' < j -> test j' (T (b * (BUCKET + 1) + j')) = None) \/
      (fc_scan_bucket (ifc_decode (fc_bkts d)) 4 d (T (b * (BUCKET + 1))) b test stop dec = (do r <- stop (bsz n b); Ok (r, dec')) /\
         forall j', 1 <= j' <= bsz n b -> test j' (T (b * (BUCKET + 1) + j')) = None)).
  Proof.
    intros Hb Hdec. pose proof W as (_ & Hne & Hwf).
    destruct (scan_bucket_res_ok ifc_enc ifc_decode 4 MAX_TERMS (MAX_TERMS * 4) ifc_good ifc_good_len
              MT256 ifc_decode_ok d cs b test stop dec) as (dec' & E & Hl);
      auto using wf_completions_good; [lia|].
    fold n in E. exists dec'. split; [lia|].
    set (ss := firstn (bsz n b) (skipn (b * (BUCKET + 1) + 1) cs)) in *.
    assert (Hss : length ss = bsz n b) by (apply bucket_strs_len; auto using iHn).
    assert (Hnth : forall j, 1 <= j <= bsz n b -> nth_error ss (j - 1) = Some (T (b * (BUCKET + 1) + j))).
    { intros j Hj. apply (nth_error_nth_iff ss (j - 1) []). rewrite Hss. split; [lia|].
      subst ss. rewrite bucket_strs_nth by lia. unfold T. f_equal. lia. }
    destruct (pure_scan_res_spec test (stop (bsz n b)) 1 ss) as [(j & s & r & Hj & Ht & Hr & Hbef)|[Hr Hall]];
      rewrite Hr in E.
    - left. assert (Hjb : j < bsz n b) by (rewrite <- Hss; apply nth_error_Some; congruence).
      pose proof (Hnth (j + 1) ltac:(lia)) as Hs. replace (j + 1 - 1) with j in Hs by lia.
      rewrite Hj in Hs. injection Hs as ->.
      exists (j + 1), r. split; [lia|]. split; [now rewrite Nat.add_comm in Ht|].
      split; [exact E|]. intros j' Hj'.
      specialize (Hbef (j' - 1) _ ltac:(lia) (Hnth j' ltac:(lia))).
      now replace (1 + (j' - 1)) with j' in Hbef by lia.
    - right. split; [exact E|]. intros j' Hj'.
      specialize (Hall (j' - 1) _ (Hnth j' ltac:(lia))).
      now replace (1 + (j' - 1)) with j' in Hall by lia.
  Qed.

  Lemma ifc_locate_bucket_ok t :
    exists ish b,
      locate_bucket uint32_range_compare (fc_header d) (fc_buckets d) 0 t = Ok (ish, T (b * (BUCKET + 1)), b) /\ b < nb /\
      (ish = true -> T (b * (BUCKET + 1)) = t) /\
      (ish = false -> (b = 0 /\ lex_lt t (T 0) \/ lex_lt (T (b * (BUCKET + 1))) t) /\
                      forall b', b < b' < nb -> lex_lt t (T (b' * (BUCKET + 1)))).
  Proof.
    rewrite (lay_buckets _ _ _ _ L). fold n nb.
    destruct (locate_bucket_ok (fc_header d) (fun b => T (b * (BUCKET + 1))) nb (lay_header _ _ _ _ L)
                uint32_range_compare t iHnb) as (ish & h & b & E & Hb & Eh & H1 & H2).
    - intros b Hb. apply urc_sgn.
    - intros i j Hij. apply iT_lt. pose proof (ibnd j ltac:(lia)). lia.
    - exists ish, b. subst h. cbv beta in *. auto.
  Qed.

  (** ** locate *)
  Lemma ifc_locate_ok t dec :
    length dec = 2 * MAX_TERMS ->
    (forall i, i < n -> T i = t -> exists dec', ifc_locate d t dec = Ok (Some i, dec') /\ length dec' = 2 * MAX_TERMS) /\
    (forall i dec', ifc_locate d t dec = Ok (Some i, dec') -> i < n /\ T i = t).
  Proof.
    intros Hdec. destruct (ifc_locate_bucket_ok t) as (ish & b & E & Hb & H1 & H2).
    pose proof (ibnd b Hb) as Hbd.
    unfold ifc_locate. rewrite E. cbn [bind].
    assert (Hinj : forall i j, i < n -> j < n -> T i = t -> T j = t -> i = j).
    { intros i j Hi Hj Ei Ej. apply (lex_sorted_nth_inj cs i j []); auto; [apply W|unfold T in *; congruence]. }
    destruct ish.
    - specialize (H1 eq_refl). split.
      + intros i Hi Ei. exists dec. split; [|exact Hdec]. do 3 f_equal. apply Hinj; auto; try lia.
      + intros i dec' Heq. injection Heq as <- <-. replace (b * (BUCKET + 1)) with (b * (BUCKET + 1)) by lia. split; [lia|exact H1].
    - destruct (H2 eq_refl) as [Hlow Hhigh]. clear H1 H2.
      unfold ifc_locate_in.
      match goal with |- context [fc_scan_bucket _ _ _ _ _ ?tst ?stp _] =>
        destruct (ifc_scan_spec b tst stp dec Hb Hdec) as (dec' & Hl' & [(j & r & Hj & Ht & Es & Hbef)|[Es Hall]])
      end; cbv beta zeta in *; rewrite Es; cbn [bind].
      + destruct (uint32_compare_correct t (T (b * (BUCKET + 1) + j))) as (C1 & C2 & C3).
        assert (Hr : (r = Some j /\ T (b * (BUCKET + 1) + j) = t) \/ (r = None /\ lex_lt t (T (b * (BUCKET + 1) + j)))).
        { destruct (Z.eqb_spec (uint32_range_compare t (T (b * (BUCKET + 1) + j))) 0) as [Ez|Nz].
          - left. injection Ht as <-. split; [reflexivity|]. symmetry. now apply C2.
          - destruct (Z.ltb_spec (uint32_range_compare t (T (b * (BUCKET + 1) + j))) 0) as [Hlt|]; [|discriminate].
            right. injection Ht as <-. split; [reflexivity|]. now apply C1. }
        destruct Hr as [[-> Ht']|[-> Ht']].
        * split.
          -- intros i Hi Ei. exists dec'. split; [|exact Hl']. do 3 f_equal. apply Hinj; auto; try lia.
          -- intros i dec'' Heq. injection Heq as <- <-. replace (b * (BUCKET + 1) + j) with (b * (BUCKET + 1) + j) by lia.
             split; [lia|exact Ht'].
        * split; [|intros; discriminate].
          intros i Hi Ei. exfalso.
          assert (Hij : i < b * (BUCKET + 1) + j).
          { destruct (Nat.lt_trichotomy i (b * (BUCKET + 1) + j)) as [H|[H|H]]; auto; exfalso.
            - subst i. rewrite Ei in Ht'. exact (lex_irrefl _ Ht').
            - pose proof (iT_lt (b * (BUCKET + 1) + j) i ltac:(lia)) as Hc. rewrite Ei in Hc. exact (lex_asym _ _ Hc Ht'). }
          destruct (Nat.le_gt_cases i (b * (BUCKET + 1))) as [Hle|Hgt].
          -- destruct Hlow as [[-> Hlow]|Hlow].
             ++ replace i with 0 in Ei by lia. rewrite Ei in Hlow. exact (lex_irrefl _ Hlow).
             ++ destruct (Nat.eq_dec i (b * (BUCKET + 1))) as [->|Hne]; [rewrite Ei in Hlow; exact (lex_irrefl _ Hlow)|].
                pose proof (iT_lt i (b * (BUCKET + 1)) ltac:(lia)) as Hc. rewrite Ei in Hc. exact (lex_asym _ _ Hc Hlow).
          -- specialize (Hbef (i - b * (BUCKET + 1)) ltac:(lia)). replace (b * (BUCKET + 1) + (i - b * (BUCKET + 1))) with i in Hbef by lia.
             rewrite Ei in Hbef. destruct (uint32_compare_correct t t) as (_ & D2 & _).
             rewrite (proj2 D2 eq_refl) in Hbef. discriminate.
      + split; [|intros; discriminate].
        intros i Hi Ei. exfalso.
        destruct (Nat.le_gt_cases i (b * (BUCKET + 1))) as [Hle|Hgt].
        * destruct Hlow as [[-> Hlow]|Hlow].
          -- replace i with 0 in Ei by lia. rewrite Ei in Hlow. exact (lex_irrefl _ Hlow).
          -- destruct (Nat.eq_dec i (b * (BUCKET + 1))) as [->|Hne]; [rewrite Ei in Hlow; exact (lex_irrefl _ Hlow)|].
             pose proof (iT_lt i (b * (BUCKET + 1)) ltac:(lia)) as Hc. rewrite Ei in Hc. exact (lex_asym _ _ Hc Hlow).
        * destruct (Nat.le_gt_cases i (b * (BUCKET + 1) + bsz n b)) as [Hle|Hgt2].
          -- specialize (Hall (i - b * (BUCKET + 1)) ltac:(lia)). replace (b * (BUCKET + 1) + (i - b * (BUCKET + 1))) with i in Hall by lia.
             rewrite Ei in Hall. destruct (uint32_compare_correct t t) as (_ & D2 & _).
             rewrite (proj2 D2 eq_refl) in Hall. discriminate.
          -- destruct (Nat.eq_dec b (nb - 1)) as [Hbe|Hbe].
             { pose proof ilast as Hlast. rewrite <- Hbe in Hlast. lia. }
             rewrite ifull in Hgt2 by lia.
             specialize (Hhigh (b + 1) ltac:(lia)).
             destruct (Nat.eq_dec i ((b + 1) * (BUCKET + 1))) as [->|Hne]; [rewrite Ei in Hhigh; exact (lex_irrefl _ Hhigh)|].
             pose proof (iT_lt ((b + 1) * (BUCKET + 1)) i ltac:(lia)) as Hc. rewrite Ei in Hc. exact (lex_asym _ _ Hc Hhigh).
  Qed.

  (** ** locate_prefix: the left end *)
  Lemma ifc_begin_ok q dl :
    length dl = 2 * MAX_TERMS ->
    exists ish b pb dl',
      locate_bucket uint32_range_compare (fc_header d) (fc_buckets d) 0 q = Ok (ish, T (b * (BUCKET + 1)), b) /\ b < nb /\
      (if negb ish then
         do (o, dl') <- ifc_left_locate d q (T (b * (BUCKET + 1))) b dl;
         Ok (b * (BUCKET + 1) + o, dl')
       else Ok (b * (BUCKET + 1), dl)) = Ok (pb, dl') /\ length dl' = 2 * MAX_TERMS /\
      (b = 0 \/ ~ lex_lt q (T (b * (BUCKET + 1)))) /\
      ((lex_lt q (T 0) /\ pb = 1) \/
       (~ lex_lt q (T 0) /\ pb <= n /\ forall i, i < n -> (lex_lt (T i) q <-> i < pb))).
  Proof.
    intros Hdl. destruct (ifc_locate_bucket_ok q) as (ish & b & E & Hb & H1 & H2).
    pose proof (ibnd b Hb) as Hbd. pose proof iHn as Hn.
    exists ish, b. destruct ish; cbn [negb].
    - specialize (H1 eq_refl). exists (b * (BUCKET + 1)), dl.
      split; [exact E|]. split; [exact Hb|]. split; [reflexivity|]. split; [exact Hdl|].
      split; [right; rewrite H1; apply lex_irrefl|].
      right. replace (b * (BUCKET + 1)) with (b * (BUCKET + 1)) by lia.
      split; [|split; [lia|]].
      + intros Hlt. destruct (Nat.eq_dec b 0) as [->|Hne].
        * change (T 0 = q) in H1. rewrite H1 in Hlt. exact (lex_irrefl _ Hlt).
        * pose proof (iT_lt 0 (b * (BUCKET + 1)) ltac:(lia)) as Hc. rewrite H1 in Hc. exact (lex_asym _ _ Hc Hlt).
      + intros i Hi. split.
        * intros Hlt. destruct (Nat.lt_trichotomy i (b * (BUCKET + 1))) as [H|[H|H]]; auto; exfalso.
          -- subst i. rewrite H1 in Hlt. exact (lex_irrefl _ Hlt).
          -- pose proof (iT_lt (b * (BUCKET + 1)) i ltac:(lia)) as Hc. rewrite H1 in Hc. exact (lex_asym _ _ Hc Hlt).
        * intros Hlt. rewrite <- H1. apply iT_lt. lia.
    - destruct (H2 eq_refl) as [Hlow Hhigh]. clear H1 H2.
      unfold ifc_left_locate.
      assert (Htest : forall i s, (if (uint32_range_compare_n s q (length q) >=? 0)%Z then Some i else None) = Some i \/
                        (if (uint32_range_compare_n s q (length q) >=? 0)%Z then Some i else @None nat) = None) by
        (intros i s; destruct (uint32_range_compare_n s q (length q) >=? 0)%Z; auto).
      assert (Htlt : forall (i : nat) s, (if (uint32_range_compare_n s q (length q) >=? 0)%Z then Some i else None) = None <-> lex_lt s q).
      { intros i s. pose proof (urcn_sgn s q) as Hs. rewrite <- pcmp_lt. rewrite <- (sgn_lt _ _ Hs).
        destruct (Z.geb_spec (uint32_range_compare_n s q (length q)) 0); split; intros; try discriminate; try reflexivity; lia. }
      match goal with |- context [fc_scan_bucket _ _ _ _ _ ?tst ?stp _] =>
        destruct (ifc_scan_spec b tst stp dl Hb Hdl) as (dl' & Hl' & Hscan)
      end; cbv beta zeta in *.
      set (SB := fc_scan_bucket _ _ _ _ _ _ _ _) in *.
      assert (Hpb : exists o, SB = Ok (o, dl') /\ 1 <= o <= bsz n b + 1 /\
                 (o <= bsz n b -> ~ lex_lt (T (b * (BUCKET + 1) + o)) q) /\
                 forall j, 1 <= j < o -> lex_lt (T (b * (BUCKET + 1) + j)) q).
      { destruct Hscan as [(j & r & Hj & Ht & Es & Hbef)|[Es Hall]].
        - destruct (Htest j (T (b * (BUCKET + 1) + j))) as [Ht'|Ht']; rewrite Ht in Ht'; [|discriminate].
          injection Ht' as ->. exists j. split; [exact Es|]. split; [lia|]. split.
          + intros _ Hlt. apply (Htlt j) in Hlt. rewrite Ht in Hlt. discriminate.
          + intros j' Hj'. apply (Htlt j'). auto.
        - exists (bsz n b + 1). split; [exact Es|]. split; [lia|]. split; [lia|].
          intros j' Hj'. apply (Htlt j'). apply Hall. lia. }
      destruct Hpb as (o & ESB & Ho & Ho1 & Ho2).
      exists (b * (BUCKET + 1) + o), dl'. split; [exact E|]. split; [exact Hb|].
      split; [rewrite ESB; reflexivity|]. split; [exact Hl'|].
      split; [destruct Hlow as [[H _]|H]; [now left|right; intros Hc; exact (lex_asym _ _ H Hc)]|].
      replace (b * (BUCKET + 1)) with (b * (BUCKET + 1)) by lia.
      destruct Hlow as [[-> Hlow]|Hlow].
      + left. split; [exact Hlow|]. destruct (Nat.eq_dec o 1) as [->|Hne]; [reflexivity|]. exfalso.
        pose proof (Ho2 1 ltac:(lia)) as Hc. pose proof (iT_lt 0 (0 * (BUCKET + 1) + 1) ltac:(lia)) as Hc2.
        exact (lex_asym _ _ Hlow (lex_trans _ _ _ Hc2 Hc)).
      + right. split; [|split].
        * intros Hlt. destruct (Nat.eq_dec b 0) as [->|Hne]; [exact (lex_asym _ _ Hlt Hlow)|].
          pose proof (iT_lt 0 (b * (BUCKET + 1)) ltac:(lia)) as Hc. exact (lex_asym _ _ Hlt (lex_trans _ _ _ Hc Hlow)).
        * lia.
        * intros i Hi. split.
          -- intros Hlt. destruct (Nat.lt_ge_cases i (b * (BUCKET + 1) + o)) as [H|Hge]; auto. exfalso.
             destruct (Nat.le_gt_cases o (bsz n b)) as [Hle|Hgt].
             ++ destruct (Nat.eq_dec i (b * (BUCKET + 1) + o)) as [->|Hne]; [now apply Ho1|].
                apply (Ho1 Hle). apply lex_trans with (T i); [|exact Hlt]. apply iT_lt. lia.
             ++ destruct (Nat.eq_dec b (nb - 1)) as [Hbe|Hbe].
                { pose proof ilast as Hlast. rewrite <- Hbe in Hlast. lia. }
                rewrite ifull in * by lia. specialize (Hhigh (b + 1) ltac:(lia)).
                destruct (Nat.eq_dec i ((b + 1) * (BUCKET + 1))) as [->|Hne]; [exact (lex_asym _ _ Hlt Hhigh)|].
                pose proof (iT_lt ((b + 1) * (BUCKET + 1)) i ltac:(lia)) as Hc.
                exact (lex_asym _ _ Hlt (lex_trans _ _ _ Hhigh Hc)).
          -- intros Hlt. destruct (Nat.lt_trichotomy i (b * (BUCKET + 1))) as [H|[H|H]].
             ++ apply lex_trans with (T (b * (BUCKET + 1))); [|exact Hlow]. apply iT_lt. lia.
             ++ now subst i.
             ++ replace i with (b * (BUCKET + 1) + (i - b * (BUCKET + 1))) by lia. apply Ho2. lia.
  Qed.

  (** The right end: [R i] = completion [i] is not beyond the block of [q]. *)
  Lemma ifc_end_ok q hint dr :
    length dr = 2 * MAX_TERMS -> hint < nb ->
    (hint = 0 \/ pcmp (T (hint * (BUCKET + 1))) q <> Gt) ->
    exists b pe o dr',
      ifc_locate_right_bucket d q hint = Ok (T (b * (BUCKET + 1)), b) /\
      ifc_right_locate d q (T (b * (BUCKET + 1))) b dr = Ok (o, dr') /\ length dr' = 2 * MAX_TERMS /\
      pe = b * (BUCKET + 1) + o /\ pe < n /\
      ((pcmp (T 0) q = Gt /\ pe = 0) \/
       (forall i, i < n -> (pcmp (T i) q <> Gt <-> i <= pe))).
  Proof.
    intros Hdr Hhint Hh. pose proof iHnb as Hnb. pose proof iHn as Hn.
    set (c := fun i => pcmp (T i) q).
    assert (c_gt : forall i j, i <= j < n -> c i = Gt -> c j = Gt).
    { intros i j Hij. destruct (Nat.eq_dec i j) as [->|Hne]; [auto|].
      apply (pcmp_mono (T i) (T j) q). apply iT_lt. lia. }
    assert (Hcmp : forall s, (uint32_range_compare_n s q (length q) >? 0)%Z = true <-> pcmp s q = Gt).
    { intros s. rewrite <- (sgn_gt _ _ (urcn_sgn s q)). lia. }
    unfold ifc_locate_right_bucket. rewrite (lay_buckets _ _ _ _ L). fold n nb.
    destruct (bsearch_ok (fc_header d) (fun b => T (b * (BUCKET + 1))) nb (lay_header _ _ _ _ L)
                (fun cmp => (cmp >? 0)%Z) (fun h => uint32_range_compare_n h q (length q)) (Z.of_nat hint))
      as (lo & mi & cmp & h & E & Hlo & HL & HR & Hmi); [lia| |].
    { intros i j Hij _ Hi. cbv beta in *. apply Hcmp. apply Hcmp in Hi.
      pose proof (ibnd j ltac:(lia)). apply (c_gt (i * (BUCKET + 1)) (j * (BUCKET + 1))); [lia|exact Hi]. }
    cbv beta in *. rewrite E. cbn [bind].
    set (b := if (lo - 1 =? -1)%Z then 0 else Z.to_nat (lo - 1)).
    assert (Hb : b < nb).
    { subst b. destruct (Z.eqb_spec (lo - 1) (-1)); lia. }
    assert (Eb : (if (cmp <? 0)%Z then Ok (h, Z.to_nat mi)
                  else do h0 <- fc_header d b; Ok (h0, b)) = Ok (T (b * (BUCKET + 1)), b)).
    { destruct (Z.ltb_spec cmp 0) as [Hlt|Hge].
      - destruct (Hmi ltac:(lia)) as (-> & Hm1 & ->).
        { destruct (Z.gtb_spec cmp 0); [lia|reflexivity]. }
        subst b. destruct (Z.eqb_spec (lo - 1) (-1)); [lia|]. reflexivity.
      - rewrite (lay_header _ _ _ _ L b) by exact Hb. reflexivity. }
    assert (Hcb : c (b * (BUCKET + 1)) = Gt -> b = 0).
    { intros Hgt. subst b. destruct (Z.eqb_spec (lo - 1) (-1)) as [|Hne]; [reflexivity|].
      destruct (Z.eq_dec lo (Z.of_nat hint)) as [Elo|Nlo].
      - (* bucket hint - 1 *)
        destruct Hh as [Hh|Hh]; [lia|]. exfalso. apply Hh.
        pose proof (ibnd hint Hhint). apply (c_gt (Z.to_nat (lo - 1) * (BUCKET + 1)) (hint * (BUCKET + 1))); [lia|exact Hgt].
      - specialize (HL (Z.to_nat (lo - 1)) ltac:(lia)). apply Hcmp in Hgt. congruence. }
    assert (Hcn : b = nb - 1 \/ c ((b + 1) * (BUCKET + 1)) = Gt \/ (b = 0 /\ c 0 = Gt)).
    { subst b. destruct (Z.eqb_spec (lo - 1) (-1)) as [E0|Hne].
      - right. right. split; [reflexivity|]. apply Hcmp. apply (HR 0). lia.
      - destruct (Z.eq_dec lo (Z.of_nat nb)) as [->|Hne2]; [left; lia|]. right. left.
        replace (Z.to_nat (lo - 1) + 1) with (Z.to_nat lo) by lia. apply Hcmp. apply HR. lia. }
    pose proof (ibnd b Hb) as Hbd.
    unfold ifc_right_locate.
    match goal with |- context [fc_scan_bucket _ _ _ _ _ ?tst ?stp _] => set (test := tst); set (stp0 := stp) end.
    destruct (ifc_scan_spec b test stp0 dr Hb Hdr) as (dr' & Hl' & Hscan).
    assert (Ho : exists o, fc_scan_bucket (ifc_decode (fc_bkts d)) 4 d (T (b * (BUCKET + 1))) b test stp0 dr = Ok (o, dr') /\
                   o <= bsz n b /\ (o < bsz n b -> c (b * (BUCKET + 1) + o + 1) = Gt) /\
                   forall j, 1 <= j <= o -> c (b * (BUCKET + 1) + j) <> Gt).
    { destruct Hscan as [(j & r & Hj & Ht & Es & Hbef)|[Es Hall]].
      - unfold test in Ht.
        destruct (uint32_range_compare_n (T (b * (BUCKET + 1) + j)) q (length q) >? 0)%Z eqn:Eg; [|discriminate].
        injection Ht as <-. exists (j - 1). split; [exact Es|]. split; [lia|]. split.
        + intros _. replace (b * (BUCKET + 1) + (j - 1) + 1) with (b * (BUCKET + 1) + j) by lia. now apply Hcmp.
        + intros j' Hj' Hc. apply Hcmp in Hc. specialize (Hbef j' ltac:(lia)). unfold test in Hbef.
          rewrite Hc in Hbef. discriminate.
      - exists (bsz n b). split; [exact Es|]. split; [lia|]. split; [lia|].
        intros j' Hj' Hc. apply Hcmp in Hc. specialize (Hall j' ltac:(lia)). unfold test in Hall.
        rewrite Hc in Hall. discriminate. }
    destruct Ho as (o & Es & Ho1 & Ho2 & Ho3).
    exists b, (b * (BUCKET + 1) + o), o, dr'.
    split; [exact Eb|]. split; [exact Es|]. split; [exact Hl'|]. split; [reflexivity|].
    replace (b * (BUCKET + 1)) with (b * (BUCKET + 1)) by lia. split; [lia|].
    destruct (c (b * (BUCKET + 1))) eqn:Ecb.
    3:{ left. rewrite (Hcb eq_refl) in *. split; [exact Ecb|].
        destruct (Nat.eq_dec o 0) as [->|Hne]; [reflexivity|]. exfalso.
        apply (Ho3 1); [lia|]. apply (c_gt (0 * (BUCKET + 1))); [lia|exact Ecb]. }
    all: right; intros i Hi; split.
    1,3: intros Hng; destruct (Nat.le_gt_cases i (b * (BUCKET + 1) + o)) as [|Hgt]; auto; exfalso; apply Hng; fold (c i);
      destruct (Nat.lt_ge_cases o (bsz n b)) as [Hlt|Hge];
      [apply (c_gt (b * (BUCKET + 1) + o + 1)); [lia|now apply Ho2]
      |destruct (Nat.eq_dec b (nb - 1)) as [Hbe|Hbe];
       [pose proof ilast as Hlast; rewrite <- Hbe in Hlast; lia
       |rewrite ifull in * by lia; destruct Hcn as [Hcn|[Hcn|[Hb0 Hc0]]];
        [lia|apply (c_gt ((b + 1) * (BUCKET + 1))); [lia|exact Hcn]|rewrite Hb0 in Ecb; cbn in Ecb; congruence]]].
    all: intros Hle Hgt; fold (c i) in Hgt; destruct (Nat.le_gt_cases i (b * (BUCKET + 1))) as [Hlb|Hlb];
      [rewrite (c_gt i (b * (BUCKET + 1))) in Ecb; [discriminate|lia|exact Hgt]
      |apply (Ho3 (i - b * (BUCKET + 1))); [lia|]; replace (b * (BUCKET + 1) + (i - b * (BUCKET + 1))) with i by lia; exact Hgt].
  Qed.
End Search.

(** ** The continuation of a prefix by a token range, in terms of comparisons *)
Lemma not_lt_pcmp c q : ~ lex_lt c q <-> pcmp c q <> Lt.
Proof. rewrite pcmp_lt. tauto. Qed.

Lemma pcmp_app p c q : pcmp (p ++ c) (p ++ q) = pcmp c q.
Proof. induction p as [|x p IH]; [reflexivity|]. cbn. rewrite N.compare_refl. exact IH. Qed.

(** Strings compared with extensions of the same prefix. *)
Lemma pcmp_off p c q : ~ is_prefix p c -> pcmp c (p ++ q) = pcmp c p.
Proof.
  revert c; induction p as [|x p IH]; intros c H; [destruct H; apply prefix_nil|].
  destruct c as [|y c]; [reflexivity|]. cbn. destruct (N.compare_spec y x) as [->|Hc|Hc]; auto.
  apply IH. intros [t ->]. apply H. exists t. reflexivity.
Qed.

Lemma continues_range p a b c : (a <= b)%N ->
  (continues p a b c <-> ~ lex_lt c (p ++ [a]) /\ pcmp c (p ++ [b]) <> Gt).
Proof.
  intros Hab. rewrite not_lt_pcmp. split.
  - intros (x & rest & -> & Hx). rewrite !pcmp_app. cbn.
    destruct (N.compare_spec x a), (N.compare_spec x b); split; try congruence; lia.
  - intros [H1 H2]. destruct (prefix_dec p c) as [[t ->]|Hn].
    + rewrite !pcmp_app in *. destruct t as [|x t]; [cbn in *; congruence|].
      exists x, t. split; [reflexivity|]. cbn in *.
      destruct (N.compare_spec x a), (N.compare_spec x b); try congruence; lia.
    + rewrite pcmp_off in * by assumption. exfalso.
      destruct (pcmp c p) eqn:E; try congruence. apply Hn. now apply pcmp_eq.
Qed.

Lemma continues_single p a inv c : Forall (fun x => x < inv)%N c ->
  (continues p a a c <-> ~ lex_lt c (p ++ [a]) /\ pcmp c (p ++ [a; inv]) <> Gt).
Proof.
  intros Hinv. rewrite not_lt_pcmp. split.
  - intros (x & rest & -> & Hx). assert (x = a) as -> by lia. rewrite !pcmp_app. cbn.
    rewrite N.compare_refl. split; [discriminate|].
    destruct rest as [|y rest]; [discriminate|].
    assert (Hy : (y < inv)%N).
    { rewrite Forall_forall in Hinv. apply Hinv. apply in_or_app. right. right. now left. }
    destruct (N.compare_spec y inv); try congruence; lia.
  - intros [H1 H2]. destruct (prefix_dec p c) as [[t ->]|Hn].
    + rewrite !pcmp_app in *. destruct t as [|x t]; [cbn in *; congruence|].
      exists x, t. split; [reflexivity|]. cbn in *.
      destruct (N.compare_spec x a); try congruence; lia.
    + rewrite pcmp_off in * by assumption. exfalso.
      destruct (pcmp c p) eqn:E; try congruence. apply Hn. now apply pcmp_eq.
Qed.

(** ** locate_prefix *)
Lemma ifc_locate_prefix_exact d cs prefix a b dl dr :
  ifc_layout d cs -> wf_completions cs -> not_multiple (length cs) ->
  (a <= b < 4294967296)%N ->
  length dl = 2 * MAX_TERMS -> length dr = 2 * MAX_TERMS ->
  exists r prefix' dl' dr',
    ifc_locate_prefix d prefix a b dl dr = Ok (r, prefix', dl', dr') /\
    length dl' = 2 * MAX_TERMS /\ length dr' = 2 * MAX_TERMS /\
    (r <> None \/ a <> b -> prefix' = prefix) /\ (r = None /\ a = b -> prefix' = prefix ++ [a]) /\
    match r with
    | Some (i, j) => exact_range_excl (length cs) (fun k => continues_found (nth 0 cs []) prefix a b (nth k cs [])) i j
    | None => forall k, k < length cs -> ~ continues_found (nth 0 cs []) prefix a b (nth k cs [])
    end.
Proof.
  intros L W H17 Hab Hdl Hdr. unfold ifc_locate_prefix.
  rewrite !N.mod_small by lia.
  set (q1 := prefix ++ [a]).
  set (q2 := if (a =? b)%N then (prefix ++ [b]) ++ [INVALID_TERM_ID] else prefix ++ [b]).
  assert (Hcont : forall k, k < length cs ->
            (continues prefix a b (nth k cs []) <-> ~ lex_lt (nth k cs []) q1 /\ pcmp (nth k cs []) q2 <> Gt)).
  { intros k Hk. subst q1 q2. destruct (N.eqb_spec a b) as [->|Hne].
    - rewrite <- app_assoc. cbn [app]. apply continues_single.
      destruct W as (_ & _ & Hw). pose proof (Forall_nth_d _ _ k [] Hw Hk) as [Hc _].
      revert Hc. apply Forall_impl. unfold INVALID_TERM_ID. lia.
    - apply continues_range. lia. }
  assert (Hn : 0 < length cs) by (destruct W as (_ & Hne & _); destruct cs; [congruence|cbn; lia]).
  assert (Hfnd : forall k, k < length cs -> (continues_found (nth 0 cs []) prefix a b (nth k cs []) <->
            (~ lex_lt (nth k cs []) q1 /\ pcmp (nth k cs []) q2 <> Gt) /\ (k = 0 -> nth 0 cs [] = q1))).
  { intros k Hk. unfold continues_found. rewrite (Hcont k Hk). split; intros [A B]; (split; [exact A|]).
    - intros ->. exact (B eq_refl).
    - intros E. destruct (Nat.eq_dec k 0) as [->|Hne]; [auto|]. exfalso. destruct W as (Hs & _).
      assert (Hlt : lex_lt (nth 0 cs []) (nth k cs [])) by (apply lex_sorted_nth; [exact Hs|lia]). rewrite E in Hlt. exact (lex_irrefl _ Hlt). }
  assert (Hq12 : pcmp q1 q2 <> Gt).
  { subst q1 q2. destruct (N.eqb_spec a b) as [->|Hne].
    - rewrite <- app_assoc. rewrite pcmp_app. cbn. rewrite N.compare_refl. discriminate.
    - rewrite pcmp_app. cbn. destruct (N.compare_spec a b); try discriminate; lia. }
  destruct (ifc_begin_ok d cs L W H17 q1 dl Hdl) as (ish & bb & pb & dl' & E1 & Hbb & E2 & Hdl' & Hbb2 & Hpb).
  rewrite E1. cbn [bind]. rewrite E2. cbn [bind].
  destruct (ifc_end_ok d cs L W H17 q2 bb dr Hdr Hbb) as (be & pe & o & dr' & E3 & E4 & Hdr' & Epe & Hpe & Hpe2).
  { destruct Hbb2 as [Hbb2|Hbb2]; [now left|right]. intros Hgt. apply Hbb2.
    destruct (lex_total (nth (bb * (BUCKET + 1)) cs []) q1) as [H|[H|H]]; auto; exfalso.
    - destruct (pcmp_mono _ _ q2 H) as [Hm _]. apply Hq12. auto.
    - rewrite H in Hgt. congruence. }
  fold q2. rewrite E3. cbn [bind]. rewrite E4. cbn [bind].
  rewrite <- Epe.
  assert (Epre : forall x, removelast (prefix ++ [x]) = prefix) by (intros x; apply removelast_last).
  assert (E5 : (if (a =? b)%N then removelast (removelast q2) else removelast q2) = prefix).
  { subst q2. destruct (a =? b)%N; rewrite ?removelast_last; reflexivity. }
  destruct (Nat.ltb_spec pe pb) as [Hlt|Hge].
  - do 4 eexists. split; [reflexivity|]. split; [exact Hdl'|]. split; [exact Hdr'|]. split.
    { intros [H|H]; [congruence|]. destruct (N.eqb_spec a b); [congruence|]. exact E5. } split.
    { intros [_ <-]. subst q2. rewrite N.eqb_refl. apply removelast_last. }
    cbv iota beta. intros k Hk Hc. apply Hfnd in Hc as [[Hc1 Hc2] Hc0]; [|exact Hk].
    assert (Hk2 : k <= pe \/ (k = 0)).
    { destruct Hpe2 as [[Hg Hp]|Hp].
      - destruct (Nat.eq_dec k 0) as [|Hne]; [now right|]. exfalso.
        apply Hc2. destruct W as (Hs & _). destruct (pcmp_mono (nth 0 cs []) (nth k cs []) q2) as [Hm _]; auto.
        apply lex_sorted_nth; [exact Hs|lia].
      - left. apply Hp; assumption. }
    destruct Hpb as [[Hq Hp1]|[Hq [Hp1 Hp2]]].
    + assert (k = 0) as -> by lia. rewrite (Hc0 eq_refl) in Hq. exact (lex_irrefl _ Hq).
    + apply Hc1. apply Hp2; [exact Hk|]. lia.
  - do 4 eexists. split; [reflexivity|]. split; [exact Hdl'|]. split; [exact Hdr'|]. split.
    { intros _. exact E5. } split; [intros [H _]; discriminate|].
    cbv iota beta. unfold exact_range_excl. split; [lia|].
    intros k Hk. rewrite Hfnd by exact Hk.
    destruct Hpb as [[Hq Hp1]|[Hq [Hp1 Hp2]]].
    + subst pb. destruct Hpe2 as [[Hg Hp]|Hp]; [lia|].
      split.
      * intros [H1 H2]. split; [|lia]. split; [|apply Hp; lia].
        intros Hc. destruct (lex_asym _ _ Hq). apply lex_trans with (nth k cs []); [|exact Hc].
        destruct W as (Hs & _). apply lex_sorted_nth; [exact Hs|lia].
      * intros [[H1 H2] H0]. split; [|apply (Hp k Hk) in H2; lia].
        destruct (Nat.eq_dec k 0) as [->|]; [|lia]. exfalso.
        rewrite (H0 eq_refl) in Hq. exact (lex_irrefl _ Hq).
    + destruct Hpe2 as [[Hg Hp]|Hp].
      * exfalso. apply Hq. destruct (lex_total q1 (nth 0 cs [])) as [H|[H|H]]; auto; exfalso.
        -- rewrite <- H in Hg. congruence.
        -- assert (0 < pb) by (apply Hp2; assumption). lia.
      * rewrite (Hp k Hk). split.
        -- intros Hr. assert (Hnl : ~ lex_lt (nth k cs []) q1) by (rewrite (Hp2 k Hk); lia). split; [split; [exact Hnl|lia]|].
           intros ->. destruct (lex_total q1 (nth 0 cs [])) as [H|[H|H]]; [contradiction|now symmetry|contradiction].
        -- intros [[H1 H2] _]. rewrite (Hp2 k Hk) in H1. lia.
Qed.

(** When the first completion is not in the range, or is the first possible continuation. *)
Lemma continues_found_iff first prefix a b c : (continues prefix a b first -> first = prefix ++ [a]) ->
  (continues_found first prefix a b c <-> continues prefix a b c).
Proof.
  intros H. unfold continues_found. split; [tauto|]. intros Hc. split; [exact Hc|]. intros ->. auto.
Qed.

Lemma ifc_locate_prefix_ok d cs prefix a b dl dr :
  ifc_layout d cs -> wf_completions cs -> not_multiple (length cs) ->
  (a <= b < 4294967296)%N ->
  (continues prefix a b (nth 0 cs []) -> nth 0 cs [] = prefix ++ [a]) ->
  length dl = 2 * MAX_TERMS -> length dr = 2 * MAX_TERMS ->
  exists r prefix' dl' dr',
    ifc_locate_prefix d prefix a b dl dr = Ok (r, prefix', dl', dr') /\
    length dl' = 2 * MAX_TERMS /\ length dr' = 2 * MAX_TERMS /\
    (r <> None \/ a <> b -> prefix' = prefix) /\
    match r with
    | Some (i, j) => exact_range_excl (length cs) (fun k => continues prefix a b (nth k cs [])) i j
    | None => forall k, k < length cs -> ~ continues prefix a b (nth k cs [])
    end.
Proof.
  intros L W H17 Hab Hg Hdl Hdr.
  destruct (ifc_locate_prefix_exact d cs prefix a b dl dr L W H17 Hab Hdl Hdr) as (r & prefix' & dl' & dr' & E & A & B & C & _ & Hr).
  exists r, prefix', dl', dr'. split; [exact E|]. split; [exact A|]. split; [exact B|]. split; [exact C|]. destruct r as [[i j]|].
  - destruct Hr as [Hij Hr]. split; [exact Hij|]. intros k Hk. rewrite (Hr k Hk). now apply continues_found_iff.
  - intros k Hk Hc. apply (Hr k Hk). now apply continues_found_iff.
Qed.

(** ** The docid -> lexid map *)
Lemma num_written_all n : n mod (BUCKET + 1) <> 0 -> ifc_num_written n = n.
Proof.
  intros H. pose proof (num_buckets_total n H) as E. unfold ifc_num_written.
  assert (0 < n) by (destruct n; [rewrite Nat.mod_0_l in H by lia; congruence|lia]).
  pose proof (num_buckets_pos n ltac:(lia)). destruct (fc_num_buckets n) as [|r]; [lia|].
  cbn [Nat.sub] in E. rewrite Nat.sub_0_r in E. exact E.
Qed.

Lemma assign_lexids_ok docs : forall lexid m,
  NoDup docs -> (forall x, In x docs -> x < length m) ->
  exists m', ifc_assign_lexids docs lexid m = Ok m' /\ length m' = length m /\
    (forall i x, nth_error docs i = Some x -> nth_error m' x = Some (Some (lexid + i))) /\
    (forall x, ~ In x docs -> nth_error m' x = nth_error m x).
Proof.
  induction docs as [|a docs IH]; intros lexid m Hnd Hb.
  - exists m. repeat split; auto. intros [|i] x H; discriminate.
  - inversion Hnd as [|? ? Hni Hnd']; subst. cbn [ifc_assign_lexids].
    assert (Ha : a < length m) by (apply Hb; now left).
    rewrite (set_ok m a (Some lexid) Ha). cbn [bind].
    destruct (IH (S lexid) (upd m a (Some lexid)) Hnd') as (m' & E & Hl & H1 & H2).
    { intros x Hx. rewrite upd_length. apply Hb. now right. }
    exists m'. split; [exact E|]. split; [now rewrite Hl, upd_length|]. split.
    + intros [|i] x Hi; cbn in Hi.
      * injection Hi as <-. rewrite H2 by assumption. rewrite upd_same by assumption. do 2 f_equal. lia.
      * rewrite (H1 i x Hi). do 2 f_equal. lia.
    + intros x Hx. rewrite H2 by (intros Hc; apply Hx; now right).
      apply upd_other. intros ->. apply Hx. now left.
Qed.

Lemma docid_to_lexid_ok universe docs :
  NoDup docs -> (forall x, In x docs -> x < universe) -> not_multiple (length docs) ->
  exists m, ifc_docid_to_lexid universe docs = Ok m /\ length m = universe /\
    forall doc i, nth_error m doc = Some (Some i) <-> nth_error docs i = Some doc.
Proof.
  intros Hnd Hb H17. unfold ifc_docid_to_lexid. rewrite num_written_all by exact H17.
  rewrite firstn_all.
  destruct (assign_lexids_ok docs 0 (repeat None universe) Hnd) as (m & E & Hl & H1 & H2).
  { intros x Hx. rewrite repeat_length. auto. }
  exists m. split; [exact E|]. rewrite repeat_length in Hl. split; [exact Hl|].
  intros doc i. split; [|apply H1].
  intros Hm. destruct (in_dec Nat.eq_dec doc docs) as [Hin|Hnin].
  - apply In_nth_error in Hin as [j Hj]. rewrite (H1 j doc Hj) in Hm. cbn in Hm. congruence.
  - rewrite H2 in Hm by assumption. apply nth_error_In in Hm. apply repeat_spec in Hm. discriminate.
Qed.

End Bucket.

(** Checker for concrete data. *)
From Verif Require Import P_Fc.
Definition wf_completionsb (cs : list (list N)) : bool :=
  lex_sortedb cs && negb (length cs =? 0) &&
  forallb (fun t => forallb (fun x => (0 <? x)%N && (x <? 4294967295)%N) t && (0 <? length t) && (length t <=? 63)) cs.
Lemma wf_completionsb_wf cs : wf_completionsb cs = true -> wf_completions cs.
Proof.
  unfold wf_completionsb. intros H. apply andb_true_iff in H as [H H3]. apply andb_true_iff in H as [H1 H2].
  split; [now apply lex_sortedb_sorted|]. split; [destruct cs; [discriminate|congruence]|].
  apply Forall_forall. intros t Ht. rewrite forallb_forall in H3. specialize (H3 t Ht).
  apply andb_true_iff in H3 as [H3 H5]. apply andb_true_iff in H3 as [H3 H4].
  split; [|lia]. apply Forall_forall. intros x Hx. rewrite forallb_forall in H3. specialize (H3 x Hx). lia.
Qed.
