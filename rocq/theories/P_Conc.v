(** Interleaved lookups. *)
From Verif Require Import Base M_Compare M_Fc M_IntFc M_Conc.
Local Open Scope nat_scope.

(** * Running alone is the sequential model *)
Lemma upd_upd {A} (l : list A) : forall i a b, upd (upd l i a) i b = upd l i b.
Proof. induction l as [|x l IH]; intros [|i] a b; cbn [upd]; [reflexivity..|]. now rewrite IH. Qed.
Lemma upd_self {A} (l : list A) d : forall i, i < length l -> upd l i (nth i l d) = l.
Proof. induction l as [|x l IH]; intros [|i] H; cbn [upd nth length] in *; [lia..|reflexivity|]. rewrite IH by lia. reflexivity. Qed.
Lemma arr_upd m b l : b < length m -> arr (upd m b l) b = l.
Proof. intros H. unfold arr. rewrite upd_nth, Nat.eqb_refl. destruct (Nat.ltb_spec b (length m)); [reflexivity|lia]. Qed.
Lemma arr_other m b l b' : b <> b' -> arr (upd m b l) b' = arr m b'.
Proof. intros H. unfold arr. rewrite upd_nth. destruct (Nat.eqb_spec b b'); [congruence|reflexivity]. Qed.

Lemma upd_split {A} (l : list A) : forall i x, i < length l -> upd l i x = firstn i l ++ x :: skipn (i + 1) l.
Proof.
  induction l as [|y l IH]; intros [|i] x H; cbn [length] in H; [lia..|reflexivity|]. cbn [upd firstn Nat.add skipn app]. rewrite IH by lia. reflexivity.
Qed.
Lemma blit_cons {A} (l : list A) off x src : blit l off (x :: src) = if off <? length l then blit (upd l off x) (off + 1) src else UB.
Proof.
  unfold blit. rewrite upd_length. cbn [length]. destruct (Nat.ltb_spec off (length l)) as [H|H].
  - replace (off + 1 + length src) with (off + S (length src)) by lia. destruct (Nat.leb_spec (off + S (length src)) (length l)) as [H2|H2]; [|reflexivity].
    f_equal. rewrite (upd_split l off x H).
    assert (E : length (firstn off l) = off) by (rewrite firstn_length; lia).
    rewrite firstn_app, E. rewrite (firstn_all2 (n := off + 1) (firstn off l)) by lia. replace (off + 1 - off) with 1 by lia. cbn [firstn].
    rewrite skipn_app, E. rewrite (skipn_all2 (firstn off l)) by lia. cbn [app]. replace (off + S (length src) - off) with (S (length src)) by lia. cbn [skipn].
    rewrite <- app_assoc. cbn [app]. do 3 f_equal. rewrite skipn_skipn. f_equal. lia.
  - destruct (Nat.leb_spec (off + S (length src)) (length l)); [lia|reflexivity].
Qed.
Lemma slice_S {A} (l : list A) off n : slice l off (S n) = match nth_error l off with Some x => do s <- slice l (off + 1) n; Ok (x :: s) | None => UB end.
Proof.
  unfold slice. destruct (nth_error l off) as [x|] eqn:E.
  - assert (H : off < length l) by (apply nth_error_Some; congruence). replace (off + 1 + n) with (off + S n) by lia. destruct (Nat.leb_spec (off + S n) (length l)); [|reflexivity].
    cbn [bind]. f_equal. apply nth_error_split in E as (l1 & l2 & -> & <-). rewrite !skipn_app, Nat.sub_diag. rewrite (skipn_all2 (n := length l1 + 1) l1), (skipn_all2 (n := length l1) l1) by lia.
    replace (length l1 + 1 - length l1) with 1 by lia. reflexivity.
  - apply nth_error_None in E. destruct (Nat.leb_spec (off + S n) (length l)); [lia|reflexivity].
Qed.

Lemma alone_pbind {A B} (p : prog A) (f : A -> prog B) : forall m, alone m (pbind p f) = (do (a, m') <- alone m p; alone m' (f a)).
Proof.
  induction p as [r|b off x k IH|b off k IH]; intros m; cbn [pbind alone].
  - destruct r; reflexivity.
  - destruct (off <? length (arr m b)); [apply IH|reflexivity].
  - destruct (nth_error (arr m b) off); [apply IH|reflexivity].
Qed.
Lemma alone_wr {A} b src : forall m off (k : prog A), b < length m -> (src <> [] \/ off <= length (arr m b)) ->
  alone m (wr_list b off src k) = (do out <- blit (arr m b) off src; alone (upd m b out) k).
Proof.
  induction src as [|x src IH]; intros m off k Hb Ho; cbn [wr_list].
  - destruct Ho as [Ho|Ho]; [congruence|]. rewrite blit_ok by (cbn [length]; lia). cbn [bind length app]. rewrite Nat.add_0_r, firstn_skipn. unfold arr. now rewrite upd_self.
  - cbn [alone]. rewrite blit_cons. destruct (Nat.ltb_spec off (length (arr m b))) as [H|H]; [|reflexivity].
    rewrite IH; [|now rewrite upd_length|right; rewrite arr_upd, upd_length by assumption; lia]. rewrite arr_upd by assumption.
    destruct (blit (upd (arr m b) off x) (off + 1) src); cbn [bind]; [|reflexivity..]. now rewrite upd_upd.
Qed.
Lemma alone_rd {A} b n : forall m off (k : list N -> prog A), off <= length (arr m b) ->
  alone m (rd_list b off n k) = (do s <- slice (arr m b) off n; alone m (k s)).
Proof.
  induction n as [|n IH]; intros m off k Ho; cbn [rd_list].
  - rewrite slice_ok by lia. reflexivity.
  - cbn [alone]. rewrite slice_S. destruct (nth_error (arr m b) off) as [x|] eqn:E; [|reflexivity].
    assert (H : off < length (arr m b)) by (apply nth_error_Some; congruence). rewrite IH by lia. destruct (slice (arr m b) (off + 1) n); reflexivity.
Qed.

(** The result, without the memory. *)
Definition answer {A M} (r : res (A * M)) : res A := do (a, _) <- r; Ok a.

Section Loops.
  Context (entry : nat -> res (nat * nat * list N)) (decode : nat -> list N -> nat -> res (nat * nat * list N)) (w b : nat).
  Hypothesis Hdec : forall cur out base, decode cur out base = (do (len, l, src) <- entry cur; do out' <- blit out (base + l) src; Ok (len, l, out')).
  Hypothesis Hne : forall cur len l src, entry cur = Ok (len, l, src) -> src <> [].

  Lemma c_extract_loop_alone id : forall cur len base m, b < length m ->
    alone m (c_extract_loop entry w b id cur len base) = (do (n, out) <- fc_extract_loop decode w id cur len (arr m b) base; Ok (n, upd m b out)).
  Proof.
    induction id as [|id IH]; intros cur len base m Hb; cbn [c_extract_loop fc_extract_loop].
    - cbn [alone bind]. unfold arr. now rewrite upd_self.
    - rewrite alone_pbind, Hdec. cbn [alone]. destruct (entry cur) as [[[len' l] src]| | |] eqn:E; cbn [bind]; [|reflexivity..].
      rewrite alone_wr; [|exact Hb|left; exact (Hne _ _ _ _ E)]. destruct (blit (arr m b) (base + l) src) as [out| | |]; cbn [bind]; [|reflexivity..].
      destruct (len' <? l); [reflexivity|]. rewrite IH by now rewrite upd_length. rewrite arr_upd by assumption.
      destruct (fc_extract_loop _ _ _ _ _ _ _) as [[n o]| | |]; cbn [bind]; [|reflexivity..]. now rewrite upd_upd.
  Qed.
  Lemma c_scan_alone {R} (test : nat -> list N -> option R) stop n : forall i cur m, b < length m ->
    alone m (c_scan entry w b test stop n i cur) = (do (r, dec) <- fc_scan decode w test stop n i cur (arr m b); Ok (r, upd m b dec)).
  Proof.
    induction n as [|n IH]; intros i cur m Hb; cbn [c_scan fc_scan].
    - cbn [alone]. destruct stop; cbn [bind]; [|reflexivity..]. unfold arr. now rewrite upd_self.
    - rewrite alone_pbind, Hdec. cbn [alone]. destruct (entry cur) as [[[len' l] src]| | |] eqn:E; cbn [bind]; [|reflexivity..].
      rewrite alone_wr; [|exact Hb|left; exact (Hne _ _ _ _ E)]. cbn [Nat.add]. destruct (blit (arr m b) l src) as [out| | |]; cbn [bind]; [|reflexivity..].
      rewrite alone_rd by lia. rewrite arr_upd by assumption. destruct (slice out 0 len') as [s| | |]; cbn [bind]; [|reflexivity..].
      destruct (test i s) as [r|]; [reflexivity|]. destruct (len' <? l); [reflexivity|]. rewrite IH by now rewrite upd_length. rewrite arr_upd by assumption.
      destruct (fc_scan _ _ _ _ _ _ _ _) as [[r o]| | |]; cbn [bind]; [|reflexivity..]. now rewrite upd_upd.
  Qed.
  Lemma c_scan_bucket_alone {R} d h bu (test : nat -> list N -> option R) stop m : b < length m ->
    alone m (c_scan_bucket entry w b d h bu test stop) = (do (r, dec) <- fc_scan_bucket decode w d h bu test stop (arr m b); Ok (r, upd m b dec)).
  Proof.
    intros Hb. unfold c_scan_bucket, fc_scan_bucket. rewrite alone_wr by (assumption || (right; lia)).
    destruct (blit (arr m b) 0 h) as [out| | |]; cbn [bind]; [|reflexivity..]. rewrite alone_pbind. cbn [alone].
    destruct (get (fc_pb d) bu) as [cur| | |]; cbn [bind]; [|reflexivity..]. rewrite c_scan_alone by now rewrite upd_length. rewrite arr_upd by assumption.
    destruct (fc_scan _ _ _ _ _ _ _ _) as [[r o]| | |]; cbn [bind]; [|reflexivity..]. now rewrite upd_upd.
  Qed.
  Lemma c_extract_at_alone d bu k base m : b < length m -> base <= length (arr m b) ->
    alone m (c_extract_at entry w b d bu k base) = (do (n, out) <- fc_extract_at decode w d bu k (arr m b) base; Ok (n, upd m b out)).
  Proof.
    intros Hb Hbase. unfold c_extract_at, fc_extract_at. rewrite alone_pbind. cbn [alone]. destruct (fc_header d bu) as [h| | |]; cbn [bind]; [|reflexivity..].
    rewrite alone_wr by auto. destruct (blit (arr m b) base h) as [out| | |]; cbn [bind]; [|reflexivity..]. rewrite alone_pbind. cbn [alone].
    destruct (get (fc_pb d) bu) as [cur| | |]; cbn [bind]; [|reflexivity..]. rewrite c_extract_loop_alone by now rewrite upd_length. rewrite arr_upd by assumption.
    destruct (fc_extract_loop _ _ _ _ _ _ _) as [[n o]| | |]; cbn [bind]; [|reflexivity..]. now rewrite upd_upd.
  Qed.
End Loops.

Lemma fc_decode_entry mem cur out base :
  fc_decode mem cur out base = (do (len, l, src) <- fc_entry mem cur; do out' <- blit out (base + l) src; Ok (len, l, out')).
Proof.
  unfold fc_decode, fc_entry. destruct (get mem cur); cbn [bind]; [|reflexivity..]. destruct (get mem (cur + 1)); cbn [bind]; [|reflexivity..].
  destruct (slice mem (cur + 2) MAX_CHARS); reflexivity.
Qed.
Lemma ifc_decode_entry mem cur out base :
  ifc_decode mem cur out base = (do (len, l, src) <- ifc_entry mem cur; do out' <- blit out (base + l) src; Ok (len, l, out')).
Proof.
  unfold ifc_decode, ifc_entry. destruct (get mem cur); cbn [bind]; [|reflexivity..]. destruct (get mem (cur + 1)); cbn [bind]; [|reflexivity..].
  destruct (slice mem (cur + 2) (MAX_TERMS * 4)); reflexivity.
Qed.
Lemma slice_len {A} (l : list A) p n s : slice l p n = Ok s -> length s = n.
Proof. unfold slice. destruct (Nat.leb_spec (p + n) (length l)); [|discriminate]. intros E. injection E as <-. rewrite firstn_length, skipn_length. lia. Qed.
Lemma fc_entry_ne mem cur len l src : fc_entry mem cur = Ok (len, l, src) -> src <> [].
Proof.
  unfold fc_entry. destruct (get mem cur); cbn [bind]; try discriminate. destruct (get mem (cur + 1)); cbn [bind]; try discriminate.
  destruct (slice mem (cur + 2) MAX_CHARS) eqn:E; cbn [bind]; try discriminate. intros H. injection H as _ _ <-. apply slice_len in E. intros ->. discriminate.
Qed.
Lemma ifc_entry_ne mem cur len l src : ifc_entry mem cur = Ok (len, l, src) -> src <> [].
Proof.
  unfold ifc_entry. destruct (get mem cur); cbn [bind]; try discriminate. destruct (get mem (cur + 1)); cbn [bind]; try discriminate.
  destruct (slice mem (cur + 2) (MAX_TERMS * 4)) as [s| | |] eqn:E; cbn [bind]; try discriminate. intros H. injection H as _ _ <-. apply slice_len in E. 
  destruct s as [|a1 [|a2 [|a3 [|a4 s]]]]; try discriminate E. discriminate.
Qed.

Definition arrays (m : memory) : Prop := 6 <= length m.
Lemma answer_bind {A B M M'} (r : res (A * M)) (f : A -> M -> res (B * M')) : answer (do (a, m) <- r; f a m) = (do (a, m) <- r; answer (f a m)).
Proof. destruct r as [[a m]| | |]; reflexivity. Qed.

Lemma c_locate_alone d t m : arrays m -> answer (alone m (c_locate d t)) = answer (fc_locate d t (arr m B_locate)).
Proof.
  intros Hm. unfold c_locate, fc_locate. rewrite alone_pbind. cbn [alone]. destruct (locate_bucket _ _ _ _ _) as [[[ih h] bu]| | |]; cbn [bind]; [|reflexivity..].
  destruct ih; [reflexivity|]. rewrite alone_pbind. unfold c_locate_in, fc_locate_in.
  rewrite (c_scan_bucket_alone _ _ _ _ (fc_decode_entry _) (fc_entry_ne _)) by (unfold arrays, B_locate in *; lia).
  destruct (fc_scan_bucket _ _ _ _ _ _ _ _) as [[r dec]| | |]; reflexivity.
Qed.
Lemma c_locate_prefix_alone d p m : arrays m ->
  answer (alone m (c_locate_prefix d p)) = (do (r, _, _) <- fc_locate_prefix d p (arr m B_left) (arr m B_right); Ok r).
Proof.
  intros Hm. unfold c_locate_prefix, fc_locate_prefix. destruct (length p =? 0); [reflexivity|]. rewrite alone_pbind. cbn [alone].
  destruct (fc_locate_buckets d p) as [[bb be]| | |]; cbn [bind]; [|reflexivity..]. rewrite alone_pbind. cbn [alone].
  destruct (fc_header d bb) as [hb| | |]; cbn [bind]; [|reflexivity..]. rewrite alone_pbind. cbn [alone].
  destruct (fc_header d be) as [he| | |]; cbn [bind]; [|reflexivity..]. rewrite alone_pbind.
  assert (Hright : forall m', arrays m' -> arr m' B_right = arr m B_right -> forall pb (dl' : list N),
    answer (alone m' (pbind (c_right_locate d p he be) (fun o => Ret (Ok (if be * (BUCKET + 1) + o <? pb then None else Some (pb, be * (BUCKET + 1) + o)))))) =
    (do (r, _, _) <- (do (o, dr') <- fc_right_locate d p he be (arr m B_right);
       if be * (BUCKET + 1) + o <? pb then Ok (None, dl', dr') else Ok (Some (pb, be * (BUCKET + 1) + o), dl', dr')); Ok r : res (option (nat * nat)))).
  { intros m' Hm' E pb dl'. rewrite alone_pbind. unfold c_right_locate, fc_right_locate.
    rewrite (c_scan_bucket_alone _ _ _ _ (fc_decode_entry _) (fc_entry_ne _)) by (unfold arrays, B_right in *; lia). rewrite E.
    destruct (fc_scan_bucket _ _ _ _ _ _ _ _) as [[r dec]| | |]; cbn [bind]; [|reflexivity..]. cbn [alone bind answer]. destruct (_ <? pb); reflexivity. }
  destruct (negb _).
  - rewrite alone_pbind. unfold c_left_locate, fc_left_locate.
    rewrite (c_scan_bucket_alone _ _ _ _ (fc_decode_entry _) (fc_entry_ne _)) by (unfold arrays, B_left in *; lia).
    destruct (fc_scan_bucket _ _ _ _ _ _ _ _) as [[r dec]| | |]; cbn [bind]; [|reflexivity..]. cbn [alone bind].
    apply Hright; [unfold arrays; now rewrite upd_length|]. now apply arr_other.
  - cbn [alone bind]. now apply Hright.
Qed.
Lemma c_extract_alone d id out base m : out < length m -> base <= length (arr m out) ->
  alone m (c_extract d id out base) = (do (n, o) <- fc_extract d id (arr m out) base; Ok (n, upd m out o)).
Proof.
  intros Ho Hb. unfold c_extract, fc_extract. destruct id as [|i]; [reflexivity|]. apply (c_extract_at_alone _ _ _ _ (fc_decode_entry _) (fc_entry_ne _)); assumption.
Qed.
Lemma c_ilocate_alone d t m : arrays m -> answer (alone m (c_ilocate d t)) = answer (ifc_locate d t (arr m B_ilocate)).
Proof.
  intros Hm. unfold c_ilocate, ifc_locate. rewrite alone_pbind. cbn [alone]. destruct (locate_bucket _ _ _ _ _) as [[[ih h] bu]| | |]; cbn [bind]; [|reflexivity..].
  destruct ih; [reflexivity|]. rewrite alone_pbind. unfold c_ilocate_in, ifc_locate_in.
  rewrite (c_scan_bucket_alone _ _ _ _ (ifc_decode_entry _) (ifc_entry_ne _)) by (unfold arrays, B_ilocate in *; lia).
  destruct (fc_scan_bucket _ _ _ _ _ _ _ _) as [[r dec]| | |]; reflexivity.
Qed.
Lemma c_ilocate_prefix_alone d p rb re m : arrays m ->
  answer (alone m (c_ilocate_prefix d p rb re)) = (do (r, _, _, _) <- ifc_locate_prefix d p rb re (arr m B_ileft) (arr m B_iright); Ok r).
Proof.
  intros Hm. unfold c_ilocate_prefix, ifc_locate_prefix. rewrite alone_pbind. cbn [alone].
  destruct (locate_bucket _ _ _ _ _) as [[[ih hb] bb]| | |]; cbn [bind]; [|reflexivity..]. rewrite alone_pbind.
  set (prefix2 := if (rb =? re)%N then _ else _).
  assert (Hright : forall m', arrays m' -> arr m' B_iright = arr m B_iright -> forall pb (dl' : list N),
    answer (alone m' (pbind (Ret (ifc_locate_right_bucket d prefix2 bb)) (fun '(h_end, be) => pbind (c_iright_locate d prefix2 h_end be) (fun o => 
      Ret (Ok (if be * (BUCKET + 1) + o <? pb then None else Some (pb, be * (BUCKET + 1) + o + 1))))))) =
    (do (r, _, _, _) <- (do (h_end, be) <- ifc_locate_right_bucket d prefix2 bb;
       do (o, dr') <- ifc_right_locate d prefix2 h_end be (arr m B_iright);
       if be * (BUCKET + 1) + o <? pb then Ok (None, removelast prefix2, dl', dr')
       else Ok (Some (pb, be * (BUCKET + 1) + o + 1), if (rb =? re)%N then removelast (removelast prefix2) else removelast prefix2, dl', dr')); Ok r : res (option (nat * nat)))).
  { intros m' Hm' E pb dl'. rewrite alone_pbind. cbn [alone]. destruct (ifc_locate_right_bucket d prefix2 bb) as [[he be]| | |]; cbn [bind]; [|reflexivity..].
    rewrite alone_pbind. unfold c_iright_locate, ifc_right_locate.
    rewrite (c_scan_bucket_alone _ _ _ _ (ifc_decode_entry _) (ifc_entry_ne _)) by (unfold arrays, B_iright in *; lia). rewrite E.
    destruct (fc_scan_bucket _ _ _ _ _ _ _ _) as [[r dec]| | |]; cbn [bind]; [|reflexivity..]. cbn [alone bind answer]. destruct (_ <? pb); reflexivity. }
  destruct (negb ih).
  - rewrite alone_pbind. unfold c_ileft_locate, ifc_left_locate.
    rewrite (c_scan_bucket_alone _ _ _ _ (ifc_decode_entry _) (ifc_entry_ne _)) by (unfold arrays, B_ileft in *; lia).
    destruct (fc_scan_bucket _ _ _ _ _ _ _ _) as [[r dec]| | |]; cbn [bind]; [|reflexivity..]. cbn [alone bind].
    apply Hright; [unfold arrays; now rewrite upd_length|]. now apply arr_other.
  - cbn [alone bind]. now apply Hright.
Qed.
Lemma c_iextract_alone d id out m : out < length m ->
  alone m (c_iextract d id out) = (do (n, o) <- ifc_extract d id (arr m out); Ok (n, upd m out o)).
Proof. intros Ho. unfold c_iextract, ifc_extract. apply (c_extract_at_alone _ _ _ _ (ifc_decode_entry _) (ifc_entry_ne _)); [assumption|lia]. Qed.

(** * Disjoint arrays *)
Inductive touches {A} (S : nat -> Prop) : prog A -> Prop :=
| to_ret r : touches S (Ret r)
| to_wr b off x k : S b -> touches S k -> touches S (Wr b off x k)
| to_rd b off k : S b -> (forall x, touches S (k x)) -> touches S (Rd b off k).

Lemma alone_agree {A} S (p : prog A) : touches S p -> forall m m', length m = length m' -> (forall b, S b -> arr m b = arr m' b) ->
  answer (alone m p) = answer (alone m' p).
Proof.
  induction 1 as [r|b off x k Hb H IH|b off k Hb H IH]; intros m m' Hl Hm; cbn [alone].
  - destruct r; reflexivity.
  - rewrite <- (Hm b Hb). destruct (off <? length (arr m b)); [|reflexivity]. apply IH; [now rewrite !upd_length|].
    intros b' Hb'. destruct (Nat.eq_dec b b') as [<-|Hne]; [|rewrite !arr_other by assumption; auto].
    destruct (Nat.lt_ge_cases b (length m)) as [Hlt|Hge]; [rewrite !arr_upd by congruence; reflexivity|].
    unfold arr. rewrite !upd_nth. rewrite <- Hl. destruct (Nat.ltb_spec b (length m)); [lia|]. rewrite andb_false_r. exact (Hm b Hb).
  - rewrite <- (Hm b Hb). destruct (nth_error (arr m b) off); [|reflexivity]. apply IH; assumption.
Qed.
Lemma astep_alone {A} (p : prog A) m m' p' : astep m p = Some (m', p') -> alone m p = alone m' p' \/ (p' = Ret UB /\ alone m p = UB).
Proof.
  destruct p as [r|b off x k|b off k]; cbn [astep alone]; [discriminate| |]; intros E; injection E as E.
  - destruct (off <? length (arr m b)); injection E as <- <-; auto.
  - destruct (nth_error (arr m b) off); injection E as <- <-; auto.
Qed.
Lemma astep_answer {A} (p : prog A) m m' p' : astep m p = Some (m', p') -> answer (alone m p) = answer (alone m' p').
Proof. intros E. destruct (astep_alone p m m' p' E) as [->|(-> & ->)]; reflexivity. Qed.
Lemma astep_touches {A} S (p : prog A) m m' p' : touches S p -> astep m p = Some (m', p') -> touches S p' /\ length m' = length m /\ forall b, ~ S b -> arr m' b = arr m b.
Proof.
  intros H E. destruct H as [r|b off x k Hb H|b off k Hb H]; cbn [astep] in E; [discriminate| |]; injection E as E.
  - destruct (off <? length (arr m b)); injection E as <- <-; [|split; [constructor|auto]]. split; [exact H|]. split; [apply upd_length|].
    intros b' Hb'. apply arr_other. intros ->. contradiction.
  - destruct (nth_error (arr m b) off); injection E as <- <-; (split; [now (apply H || constructor)|auto]).
Qed.

Lemma disjoint_together {A B} m (p : prog A) (q : prog B) a b : together m p q a b -> forall S T, touches S p -> touches T q -> (forall x, S x -> T x -> False) ->
  a = answer (alone m p) /\ b = answer (alone m q).
Proof.
  induction 1 as [m a b|m p q m' p' a b E H IH|m p q m' q' a b E H IH]; intros S T Hp Hq Hd.
  - cbn [alone]. split; [destruct a|destruct b]; reflexivity.
  - destruct (astep_touches S p m m' p' Hp E) as (Hp' & Hl & Hm). destruct (IH S T Hp' Hq Hd) as (-> & ->). split; [now rewrite (astep_answer p m m' p' E)|].
    symmetry. apply (alone_agree T q Hq); [congruence|]. intros x Hx. symmetry. apply Hm. intros Hs. exact (Hd x Hs Hx).
  - destruct (astep_touches T q m m' q' Hq E) as (Hq' & Hl & Hm). destruct (IH S T Hp Hq' Hd) as (-> & ->). split; [|now rewrite (astep_answer q m m' q' E)].
    symmetry. apply (alone_agree S p Hp); [congruence|]. intros x Hx. symmetry. apply Hm. intros Hs. exact (Hd x Hx Hs).
Qed.

(** Every pair of computations can finish, and no interleaving goes on forever. *)
Lemma together_exists {A B} (p : prog A) (q : prog B) : forall m, exists a b, together m p q a b.
Proof.
  induction p as [r|b off x k IH|b off k IH].
  - induction q as [r'|b off x k IH|b off k IH]; intros m.
    + exists r, r'. constructor.
    + destruct (off <? length (arr m b)) eqn:E.
      * destruct (IH (upd m b (upd (arr m b) off x))) as (a & c & H). exists a, c. eapply tg_right; [cbn [astep]; rewrite E; reflexivity|exact H].
      * exists r, UB. eapply tg_right; [cbn [astep]; rewrite E; reflexivity|constructor].
    + destruct (nth_error (arr m b) off) as [x|] eqn:E.
      * destruct (IH x m) as (a & c & H). exists a, c. eapply tg_right; [cbn [astep]; rewrite E; reflexivity|exact H].
      * exists r, UB. eapply tg_right; [cbn [astep]; rewrite E; reflexivity|constructor].
  - intros m. destruct (off <? length (arr m b)) eqn:E.
    + destruct (IH (upd m b (upd (arr m b) off x))) as (a & c & H). exists a, c. eapply tg_left; [cbn [astep]; rewrite E; reflexivity|exact H].
    + assert (Hq : forall m, exists c, together m (Ret (UB : res A)) q UB c).
      { clear. induction q as [r'|b off x k IH|b off k IH]; intros m; [exists r'; constructor| |].
        - destruct (off <? length (arr m b)) eqn:E; [destruct (IH (upd m b (upd (arr m b) off x))) as (c & H); exists c|exists UB];
            (eapply tg_right; [cbn [astep]; rewrite E; reflexivity|eassumption || constructor]).
        - destruct (nth_error (arr m b) off) as [x|] eqn:E; [destruct (IH x m) as (c & H); exists c|exists UB];
            (eapply tg_right; [cbn [astep]; rewrite E; reflexivity|eassumption || constructor]). }
      destruct (Hq m) as (c & H). exists UB, c. eapply tg_left; [cbn [astep]; rewrite E; reflexivity|exact H].
  - intros m. destruct (nth_error (arr m b) off) as [x|] eqn:E.
    + destruct (IH x m) as (a & c & H). exists a, c. eapply tg_left; [cbn [astep]; rewrite E; reflexivity|exact H].
    + assert (Hq : forall m, exists c, together m (Ret (UB : res A)) q UB c).
      { clear. induction q as [r'|b off x k IH|b off k IH]; intros m; [exists r'; constructor| |].
        - destruct (off <? length (arr m b)) eqn:E; [destruct (IH (upd m b (upd (arr m b) off x))) as (c & H); exists c|exists UB];
            (eapply tg_right; [cbn [astep]; rewrite E; reflexivity|eassumption || constructor]).
        - destruct (nth_error (arr m b) off) as [x|] eqn:E; [destruct (IH x m) as (c & H); exists c|exists UB];
            (eapply tg_right; [cbn [astep]; rewrite E; reflexivity|eassumption || constructor]). }
      destruct (Hq m) as (c & H). exists UB, c. eapply tg_left; [cbn [astep]; rewrite E; reflexivity|exact H].
Qed.

Lemma touches_pbind {A B} S (p : prog A) (f : A -> prog B) : touches S p -> (forall a, touches S (f a)) -> touches S (pbind p f).
Proof. intros H Hf. induction H as [r|b off x k Hb H IH|b off k Hb H IH]; cbn [pbind]; [destruct r; [apply Hf|constructor..]|now constructor|now constructor]. Qed.
Lemma touches_wr {A} (S : nat -> Prop) b src : forall off (k : prog A), S b -> touches S k -> touches S (wr_list b off src k).
Proof. induction src as [|x src IH]; intros off k Hb Hk; cbn [wr_list]; [exact Hk|]. constructor; auto. Qed.
Lemma touches_rd {A} (S : nat -> Prop) b n : forall off (k : list N -> prog A), S b -> (forall s, touches S (k s)) -> touches S (rd_list b off n k).
Proof. induction n as [|n IH]; intros off k Hb Hk; cbn [rd_list]; [apply Hk|]. constructor; [exact Hb|]. intros x. apply IH; auto. Qed.
Lemma touches_scan {R} (S : nat -> Prop) entry w b (test : nat -> list N -> option R) stop n : S b -> forall i cur, touches S (c_scan entry w b test stop n i cur).
Proof.
  intros Hb. induction n as [|n IH]; intros i cur; cbn [c_scan]; [constructor|]. apply touches_pbind; [constructor|]. intros [[l lcp] src]. apply touches_wr; [exact Hb|].
  apply touches_rd; [exact Hb|]. intros s. destruct (test i s); [constructor|]. destruct (l <? lcp); [constructor|apply IH].
Qed.
Lemma touches_scan_bucket {R} (S : nat -> Prop) entry w b d h bu (test : nat -> list N -> option R) stop : S b -> touches S (c_scan_bucket entry w b d h bu test stop).
Proof. intros Hb. unfold c_scan_bucket. apply touches_wr; [exact Hb|]. apply touches_pbind; [constructor|]. intros cur. now apply touches_scan. Qed.
Lemma touches_extract_at (S : nat -> Prop) entry w b d bu k base : S b -> touches S (c_extract_at entry w b d bu k base).
Proof.
  intros Hb. unfold c_extract_at. apply touches_pbind; [constructor|]. intros h. apply touches_wr; [exact Hb|]. apply touches_pbind; [constructor|]. intros cur.
  generalize (length h mod 256) as len. revert cur. induction k as [|k IH]; intros cur len; cbn [c_extract_loop]; [constructor|].
  apply touches_pbind; [constructor|]. intros [[len' l] src]. apply touches_wr; [exact Hb|]. destruct (len' <? l); [constructor|apply IH].
Qed.
Lemma touches_locate d t : touches (fun b => b = B_locate) (c_locate d t).
Proof.
  unfold c_locate. apply touches_pbind; [constructor|]. intros [[ih h] bu]. destruct ih; [constructor|]. apply touches_pbind; [now apply touches_scan_bucket|]. constructor.
Qed.
Lemma touches_locate_prefix d p : touches (fun b => b = B_left \/ b = B_right) (c_locate_prefix d p).
Proof.
  unfold c_locate_prefix. destruct (length p =? 0); [constructor|]. apply touches_pbind; [constructor|]. intros [bb be]. do 2 (apply touches_pbind; [constructor|]; intros ?).
  apply touches_pbind; [destruct (negb _); [apply touches_pbind; [apply touches_scan_bucket; auto|constructor]|constructor]|]. intros ?.
  apply touches_pbind; [apply touches_scan_bucket; auto|constructor].
Qed.
Lemma touches_extract d id out base : touches (fun b => b = out) (c_extract d id out base).
Proof. unfold c_extract. destruct id; [constructor|now apply touches_extract_at]. Qed.
Lemma touches_ilocate d t : touches (fun b => b = B_ilocate) (c_ilocate d t).
Proof.
  unfold c_ilocate. apply touches_pbind; [constructor|]. intros [[ih h] bu]. destruct ih; [constructor|]. apply touches_pbind; [now apply touches_scan_bucket|]. constructor.
Qed.
Lemma touches_ilocate_prefix d p rb re : touches (fun b => b = B_ileft \/ b = B_iright) (c_ilocate_prefix d p rb re).
Proof.
  unfold c_ilocate_prefix. apply touches_pbind; [constructor|]. intros [[ih hb] bb].
  apply touches_pbind; [destruct (negb _); [apply touches_pbind; [apply touches_scan_bucket; auto|constructor]|constructor]|]. intros ?.
  apply touches_pbind; [constructor|]. intros [he be]. apply touches_pbind; [apply touches_scan_bucket; auto|constructor].
Qed.
Lemma touches_iextract d id out : touches (fun b => b = out) (c_iextract d id out).
Proof. now apply touches_extract_at. Qed.

(** * Schedules *)
Lemma steps_left {A B} n : forall m (p : prog A) (q : prog B) a b, (let '(m', p') := steps n m p in together m' p' q a b) -> together m p q a b.
Proof.
  induction n as [|n IH]; intros m p q a b H; cbn [steps] in H; [exact H|]. destruct (astep m p) as [[m' p']|] eqn:E; [|exact H].
  eapply tg_left; [exact E|]. now apply IH.
Qed.
Lemma steps_right {A B} n : forall m (p : prog A) (q : prog B) a b, (let '(m', q') := steps n m q in together m' p q' a b) -> together m p q a b.
Proof.
  induction n as [|n IH]; intros m p q a b H; cbn [steps] in H; [exact H|]. destruct (astep m q) as [[m' q']|] eqn:E; [|exact H].
  eapply tg_right; [exact E|]. now apply IH.
Qed.
Lemma schedule_together {A B} s : forall m (p : prog A) (q : prog B) a b, (exists m', schedule s m p q = (m', Ret a, Ret b)) -> together m p q a b.
Proof.
  induction s as [|[[|] n] s IH]; intros m p q a b (m' & H); cbn [schedule] in H.
  - injection H as -> -> ->. constructor.
  - apply (steps_left n). destruct (steps n m p) as [m1 p1]. apply IH. eauto.
  - apply (steps_right n). destruct (steps n m q) as [m1 q1]. apply IH. eauto.
Qed.
