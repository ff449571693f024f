(** When extracting terms into the result buffer is defined. *)
From Verif Require Import Base S_Order S_Vocab P_Order M_Compare M_Fc P_FcGen P_Fc P_Kept M_Auto S_Collection S_Room.
Local Open Scope nat_scope.

Lemma common_lcp a b : common a b = lcp a b.
Proof. reflexivity. Qed.

Lemma blit_over {A} (l src : list A) i : length l < i + length src -> blit l i src = UB.
Proof. intros H. unfold blit. destruct (Nat.leb_spec (i + length src) (length l)); [lia|reflexivity]. Qed.

Lemma set_over {A} (l : list A) i v : length l <= i -> set l i v = UB.
Proof. intros H. unfold set. destruct (Nat.ltb_spec i (length l)); [lia|reflexivity]. Qed.

Lemma fc_decode_over mem cur out base prev s rest :
  skipn cur mem = fc_write prev s ++ rest -> MAX_CHARS <= length rest -> fc_good s ->
  length out < base + lcp s prev + MAX_CHARS ->
  fc_decode mem cur out base = UB.
Proof.
  intros Hmem Hrest Hs Hout. unfold fc_good, MAX_CHARS in *.
  set (l := lcp s prev) in *.
  assert (Hl : l <= length s) by apply lcp_le_l.
  unfold fc_write in Hmem. fold l in Hmem. cbn [app] in Hmem.
  rewrite N.mod_small in Hmem by lia. rewrite N.mod_small in Hmem by lia.
  assert (Hlen : length mem = cur + (2 + ((length s - l) + length rest))).
  { assert (length (skipn cur mem) = 2 + ((length s - l) + length rest)) as E.
    { rewrite Hmem. cbn [length]. rewrite app_length, skipn_length. lia. }
    rewrite skipn_length in E. lia. }
  unfold fc_decode.
  assert (E0 : get mem cur = Ok (N.of_nat l)).
  { apply get_ok. rewrite <- (Nat.add_0_r cur), <- nth_error_skipn, Hmem. reflexivity. }
  assert (E1 : get mem (cur + 1) = Ok (N.of_nat (length s - l))).
  { apply get_ok. rewrite <- nth_error_skipn, Hmem. reflexivity. }
  rewrite E0, E1. cbn [bind]. rewrite slice_ok by (unfold MAX_CHARS; lia). cbn [bind].
  rewrite blit_over; [reflexivity|]. rewrite firstn_length, skipn_length, Nat2N.id. unfold MAX_CHARS. lia.
Qed.

(** The writes of the extraction loop. *)
Definition loop_fits (k : nat) (prev : list N) (ss : list (list N)) (base len : nat) : Prop :=
  forall j, j < k -> base + lcp (nth j ss []) (nth j (prev :: ss) []) + MAX_CHARS <= len.

Lemma loop_fits_S k prev s ss base len :
  loop_fits (S k) prev (s :: ss) base len <-> base + lcp s prev + MAX_CHARS <= len /\ loop_fits k s ss base len.
Proof.
  split.
  - intros H. split; [exact (H 0 ltac:(lia))|]. intros j Hj. exact (H (S j) ltac:(lia)).
  - intros [H0 H] [|j] Hj; [exact H0|]. apply (H j). lia.
Qed.

Lemma fc_extract_loop_exact mem : forall k ss prev cur out base rest,
  skipn cur mem = encs fc_write prev ss ++ rest -> MAX_CHARS <= length rest ->
  Forall fc_good ss -> fc_good prev -> k <= length ss -> firstn (length prev) (skipn base out) = prev ->
  (loop_fits k prev ss base (length out) /\
   exists out', fc_extract_loop (fc_decode mem) 1 k cur (length prev) out base = Ok (length (nth k (prev :: ss) []), out')
     /\ length out' = length out /\ firstn base out' = firstn base out
     /\ firstn (length (nth k (prev :: ss) [])) (skipn base out') = nth k (prev :: ss) []) \/
  (~ loop_fits k prev ss base (length out) /\ fc_extract_loop (fc_decode mem) 1 k cur (length prev) out base = UB).
Proof.
  induction k as [|k IH]; intros ss prev cur out base rest Hmem Hrest Hss Hp Hk Hprev.
  - left. split; [intros j Hj; lia|]. exists out. cbn. auto.
  - destruct ss as [|s ss]; cbn [length] in Hk; [lia|].
    inversion Hss as [|? ? Hs Hss']; subst. cbn [encs] in Hmem. rewrite <- app_assoc in Hmem.
    rewrite loop_fits_S. cbn [fc_extract_loop].
    destruct (le_lt_dec (base + lcp s prev + MAX_CHARS) (length out)) as [Hle|Hlt].
    + destruct (fc_decode_ok mem cur out base prev s (encs fc_write s ss ++ rest)) as (out' & E & Hlen & Hfb & Hf & Hsk); auto.
      { rewrite app_length. lia. }
      rewrite E. cbn [bind]. pose proof (lcp_le_l s prev) as Hll. destruct (Nat.ltb_spec (length s) (lcp s prev)); [lia|].
      destruct (IH ss s (cur + (length s - lcp s prev) * 1 + 2) out' base rest) as [(F & out'' & E' & Hl' & Hfb' & Hf')|(F & E')]; auto; try lia; rewrite Hlen in F.
      * left. split; [auto|]. exists out''. rewrite E'. cbn [nth] in *. repeat split; auto; congruence.
      * right. split; [tauto|]. exact E'.
    + right. split; [lia|]. rewrite (fc_decode_over mem cur out base prev s (encs fc_write s ss ++ rest)); auto.
      rewrite app_length. lia.
Qed.

Local Ltac lia := first [Lia.lia | Lia.nia].

Section Bucket.
  Context {bucket : bucket_size}.

Lemma fold_max_le (l : list nat) a m : fold_right Nat.max a l <= m <-> a <= m /\ Forall (fun x => x <= m) l.
Proof.
  induction l as [|x l IH]; cbn; [split; [auto|tauto]|]. rewrite Nat.max_lub_iff, IH. split.
  - intros (A & B & C). auto.
  - intros (A & B). inversion B; auto.
Qed.

Lemma reach_fits ts i base len : base + reach ts i <= len <->
  base + length (nth (i / (BUCKET + 1) * (BUCKET + 1)) ts []) <= len /\
  forall j, j < i mod (BUCKET + 1) -> base + lcp (nth (i / (BUCKET + 1) * (BUCKET + 1) + 1 + j) ts []) (nth (i / (BUCKET + 1) * (BUCKET + 1) + j) ts []) + MAX_CHARS <= len.
Proof.
  unfold reach. set (h := i / (BUCKET + 1) * (BUCKET + 1)). set (k := i mod (BUCKET + 1)). set (l := map _ _).
  assert (E : base + fold_right Nat.max (length (nth h ts [])) l <= len <-> base <= len /\ fold_right Nat.max (length (nth h ts [])) l <= len - base) by lia.
  rewrite E, fold_max_le. subst l. rewrite Forall_map, Forall_forall. unfold MAX_CHARS. split.
  - intros (H0 & H1 & H2). split; [lia|]. intros j Hj. specialize (H2 (h + 1 + j)). rewrite common_lcp in H2.
    replace (h + 1 + j - 1) with (h + j) in H2 by lia. rewrite in_seq in H2. specialize (H2 ltac:(lia)). lia.
  - intros (H1 & H2). split; [lia|]. split; [lia|]. intros x Hx. apply in_seq in Hx. specialize (H2 (x - h - 1) ltac:(lia)).
    rewrite common_lcp. replace (h + 1 + (x - h - 1)) with x in H2 by lia. replace (h + (x - h - 1)) with (x - 1) in H2 by lia. lia.
Qed.

Lemma fc_extract_layout_exact d terms i out base :
  fc_layout d terms -> wf_vocab terms -> not_multiple (length terms) -> i < length terms ->
  (base + reach terms i <= length out /\
   exists out', fc_extract d (i + 1) out base = Ok (length (nth i terms []), out') /\
     length out' = length out /\ firstn base out' = firstn base out /\
     firstn (length (nth i terms [])) (skipn base out') = nth i terms []) \/
  (~ base + reach terms i <= length out /\ fc_extract d (i + 1) out base = UB).
Proof.
  intros L (Hsort & Hne & Hwf0) H17 Hi. pose proof (wf_terms_good terms Hwf0) as Hwf. rewrite Nat.add_1_r. unfold fc_extract.
  rewrite reach_fits. set (n := length terms) in *.
  destruct (split_index n i H17 ltac:(lia)) as (Ei & Hb & Hk).
  unfold fc_extract_at.
  set (b := i / (BUCKET + 1)) in *. set (k := i mod (BUCKET + 1)) in *.
  rewrite (lay_header _ _ _ _ L b Hb). cbn [bind].
  pose proof (nb_bound n b ltac:(lia) Hb) as Hbd.
  pose proof (Forall_nth_d fc_good terms (b * (BUCKET + 1)) [] Hwf ltac:(fold n; lia)) as Hg.
  pose proof (fc_good_len _ Hg) as Hlen. unfold MAX_CHARS in Hlen.
  set (h := nth (b * (BUCKET + 1)) terms []) in *.
  destruct (le_lt_dec (base + length h) (length out)) as [Hle|Hlt].
  2:{ right. split; [lia|]. rewrite blit_over by lia. reflexivity. }
  rewrite blit_ok by lia. cbn [bind].
  destruct (lay_bucket _ _ _ _ L b Hb) as (cur & rest & Ecur & Hrest & Hmem). fold h in Hmem.
  fold n in Hmem. rewrite Ecur. cbn [bind].
  set (out1 := firstn base out ++ h ++ skipn (base + length h) out).
  assert (Hfb : length (firstn base out) = base) by (rewrite firstn_length; lia).
  assert (Hl1 : length out1 = length out).
  { subst out1. rewrite !app_length, skipn_length. lia. }
  rewrite Nat.mod_small by lia.
  set (ss := firstn (bsz n b) (skipn (b * (BUCKET + 1) + 1) terms)) in *.
  assert (Hlss : length ss = bsz n b) by (apply (bucket_strs_len n b terms); auto; lia).
  assert (En : forall j, j <= k -> nth j (h :: ss) [] = nth (b * (BUCKET + 1) + j) terms []).
  { intros [|j] Hj; cbn [nth]; [subst h; f_equal; lia|]. subst ss. rewrite bucket_strs_nth by lia. f_equal. lia. }
  assert (Ek : nth k (h :: ss) [] = nth i terms []) by (rewrite En by lia; f_equal; lia).
  assert (Hfits : loop_fits k h ss base (length out1) <->
     forall j, j < k -> base + lcp (nth (b * (BUCKET + 1) + 1 + j) terms []) (nth (b * (BUCKET + 1) + j) terms []) + MAX_CHARS <= length out).
  { unfold loop_fits. rewrite Hl1. split; intros H j Hj; specialize (H j Hj).
    - rewrite En in H by lia. change (nth j ss []) with (nth (S j) (h :: ss) []) in H. rewrite En in H by lia.
      replace (b * (BUCKET + 1) + S j) with (b * (BUCKET + 1) + 1 + j) in H by lia. exact H.
    - rewrite En by lia. change (nth j ss []) with (nth (S j) (h :: ss) []). rewrite En by lia.
      replace (b * (BUCKET + 1) + S j) with (b * (BUCKET + 1) + 1 + j) by lia. exact H. }
  destruct (fc_extract_loop_exact (fc_bkts d) k ss h cur out1 base rest) as [(F & out' & E & Hl' & Hf1 & Hf2)|(F & E)]; auto.
  - apply Forall_sub. exact Hwf.
  - lia.
  - subst out1. rewrite skipn_app, Hfb, Nat.sub_diag. rewrite (skipn_all2 (firstn base out)) by lia.
    cbn [app skipn]. rewrite firstn_app, Nat.sub_diag, firstn_all. cbn. apply app_nil_r.
  - left. split; [split; [exact Hle|now apply Hfits]|]. rewrite Ek in *. exists out'. repeat split; auto; try lia.
    rewrite Hf1. subst out1. rewrite firstn_app, Hfb, Nat.sub_diag. cbn [firstn].
    rewrite app_nil_r. rewrite firstn_firstn. f_equal. lia.
  - right. split; [|exact E]. intros [_ H]. apply F. now apply Hfits.
Qed.

Lemma reach_stored ts i : i < length (stored ts) -> reach (stored ts) i = reach ts i.
Proof.
  intros Hi. unfold reach. pose proof (Nat.div_mod i (BUCKET + 1) ltac:(lia)) as E.
  f_equal; [f_equal; apply stored_nth; lia|]. apply map_ext_in. intros j Hj. apply in_seq in Hj. rewrite !stored_nth by lia. reflexivity.
Qed.

(** Every term the dictionary holds, every buffer and offset. *)
Lemma fc_extract_exact terms : wf_vocab terms -> exists d, fc_build terms = Ok d /\
  forall i t, nth_error (stored terms) i = Some t -> forall out base,
   (base + reach terms i <= length out /\
    exists out', fc_extract d (i + 1) out base = Ok (length t, out') /\
      length out' = length out /\ firstn base out' = firstn base out /\ firstn (length t) (skipn base out') = t) \/
   (~ base + reach terms i <= length out /\ fc_extract d (i + 1) out base = UB).
Proof.
  intros W. destruct (fc_build_any terms W) as (d & d' & E & L & Ed & Et). exists d. split; [exact E|].
  intros i t Hi out base. apply (nth_error_nth_iff (stored terms) i []) in Hi as [Hi <-]. rewrite Ed, resized_extract.
  rewrite <- reach_stored by exact Hi.
  exact (fc_extract_layout_exact d' (stored terms) i out base L (stored_vocab _ W) (stored_not_multiple _ (proj1 (proj2 W))) Hi).
Qed.

(** Bounds. *)
Lemma reach_le ts i : Forall wf_term ts -> i < length ts -> reach ts i <= 256.
Proof.
  intros H Hi. change (0 + reach ts i <= 256). apply reach_fits. pose proof (Nat.div_mod i (BUCKET + 1) ltac:(lia)).
  assert (Hl : forall j, j <= i -> length (nth j ts []) <= 128).
  { intros j Hj. rewrite Forall_forall in H. destruct (H (nth j ts [])) as [_ B]; [apply nth_In; lia|lia]. }
  split; [pose proof (Hl (i / (BUCKET + 1) * (BUCKET + 1)) ltac:(lia)); lia|]. intros j Hj. pose proof (lcp_le_r (nth (i / (BUCKET + 1) * (BUCKET + 1) + 1 + j) ts []) (nth (i / (BUCKET + 1) * (BUCKET + 1) + j) ts [])) as A.
  specialize (Hl (i / (BUCKET + 1) * (BUCKET + 1) + j) ltac:(lia)). unfold MAX_CHARS. lia.
Qed.
Lemma reach_ge ts i : Forall wf_term ts -> i < length ts -> length (nth i ts []) <= reach ts i.
Proof.
  intros H Hi. pose proof (proj1 (reach_fits ts i 0 (reach ts i)) ltac:(lia)) as [A B]. pose proof (Nat.div_mod i (BUCKET + 1) ltac:(lia)).
  assert (Hl : length (nth i ts []) <= 128).
  { rewrite Forall_forall in H. destruct (H (nth i ts [])) as [_ C]; [apply nth_In; lia|lia]. }
  destruct (i mod (BUCKET + 1)) as [|k] eqn:Ek.
  - replace (i / (BUCKET + 1) * (BUCKET + 1)) with i in A by lia. exact A.
  - specialize (B k ltac:(lia)). unfold MAX_CHARS in B. lia.
Qed.
End Bucket.
