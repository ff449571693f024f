(** Front-coded dictionaries of every size: when the number of strings is a multiple of BucketSize + 1 the dictionary built is that
    of the stored strings, with another size (F23). *)
From Verif Require Import Base S_Order S_Vocab S_Completions P_Order P_Compare M_Compare M_Fc M_IntFc P_FcGen P_Fc P_IntFc.

Local Ltac lia := first [Lia.lia | Lia.nia].

Section Bucket.
  Context {bucket : bucket_size}.

(** ** The stored strings *)
Lemma stored_all {A} (l : list A) : length l mod (BUCKET + 1) <> 0 -> stored l = l.
Proof. intros H. unfold stored. now destruct (Nat.eqb_spec (length l mod (BUCKET + 1)) 0). Qed.

Lemma stored_17 {A} (l : list A) : length l mod (BUCKET + 1) = 0 -> stored l = firstn (length l - BUCKET) l.
Proof. intros H. unfold stored. now rewrite H. Qed.

Lemma stored_split {A} (l : list A) : exists rest, l = stored l ++ rest.
Proof.
  unfold stored. destruct (length l mod (BUCKET + 1) =? 0).
  - exists (skipn (length l - BUCKET) l). now rewrite firstn_skipn.
  - exists []. now rewrite app_nil_r.
Qed.

Lemma stored_length {A} (l : list A) : length (stored l) = if length l mod (BUCKET + 1) =? 0 then length l - BUCKET else length l.
Proof. unfold stored. destruct (length l mod (BUCKET + 1) =? 0); [rewrite firstn_length; lia|reflexivity]. Qed.

Lemma stored_le {A} (l : list A) : length (stored l) <= length l.
Proof. rewrite stored_length. destruct (length l mod (BUCKET + 1) =? 0); lia. Qed.

Lemma multiple_of_bucket n : n <> 0 -> n mod (BUCKET + 1) = 0 -> exists m, n = (BUCKET + 1) * m + (BUCKET + 1).
Proof.
  intros H0 H. pose proof (Nat.div_mod n (BUCKET + 1) ltac:(lia)) as E. rewrite H, Nat.add_0_r in E.
  destruct (n / (BUCKET + 1)) as [|m]; [lia|]. exists m. rewrite E, Nat.mul_succ_r. reflexivity.
Qed.

Lemma stored_nonempty {A} (l : list A) : l <> [] -> stored l <> [].
Proof.
  intros H E. assert (L : length (stored l) = 0) by now rewrite E. rewrite stored_length in L.
  assert (length l <> 0) by (destruct l; [congruence|discriminate]).
  destruct (Nat.eqb_spec (length l mod (BUCKET + 1)) 0) as [Z|Z]; [|lia]. destruct (multiple_of_bucket _ H0 Z). lia.
Qed.

Lemma stored_not_multiple {A} (l : list A) : l <> [] -> length (stored l) mod (BUCKET + 1) <> 0.
Proof.
  intros H. rewrite stored_length. assert (H0 : length l <> 0) by (destruct l; [congruence|discriminate]).
  destruct (Nat.eqb_spec (length l mod (BUCKET + 1)) 0) as [Z|Z]; [|exact Z].
  destruct (multiple_of_bucket _ H0 Z) as [m ->]. replace ((BUCKET + 1) * m + (BUCKET + 1) - BUCKET) with (1 + m * (BUCKET + 1)) by lia.
  rewrite Nat.mod_add by lia. pose proof bucket_pos. rewrite Nat.mod_small by lia. discriminate.
Qed.

Lemma stored_nth_error {A} (l : list A) i x : nth_error (stored l) i = Some x -> nth_error l i = Some x.
Proof.
  destruct (stored_split l) as [rest E]. intros H. rewrite E. rewrite nth_error_app1; [exact H|].
  apply nth_error_Some. congruence.
Qed.

Lemma stored_nth_error_lt {A} (l : list A) i x : nth_error l i = Some x -> i < length (stored l) -> nth_error (stored l) i = Some x.
Proof. destruct (stored_split l) as [rest E]. intros H Hi. rewrite E in H. now rewrite nth_error_app1 in H. Qed.

Lemma stored_nth {A} (l : list A) i d : i < length (stored l) -> nth i (stored l) d = nth i l d.
Proof. destruct (stored_split l) as [rest E]. intros H. rewrite E at 2. now rewrite app_nth1. Qed.

Lemma stored_In {A} (l : list A) x : In x (stored l) -> In x l.
Proof. destruct (stored_split l) as [rest E]. intros H. rewrite E. apply in_or_app. now left. Qed.

Lemma stored_Forall {A} (P : A -> Prop) l : Forall P l -> Forall P (stored l).
Proof. rewrite !Forall_forall. intros H x Hx. apply H. now apply stored_In. Qed.

Lemma stored_map {A B} (f : A -> B) l : stored (map f l) = map f (stored l).
Proof. unfold stored. rewrite map_length. destruct (length l mod (BUCKET + 1) =? 0); [apply firstn_map|reflexivity]. Qed.

Lemma stored_sorted l : lex_sorted l -> lex_sorted (stored l).
Proof. destruct (stored_split l) as [rest E]. intros H. rewrite E in H. now apply lex_sorted_app_inv in H. Qed.

Lemma stored_vocab terms : wf_vocab terms -> wf_vocab (stored terms).
Proof. intros (A & B & C). split; [now apply stored_sorted|]. split; [now apply stored_nonempty|now apply stored_Forall]. Qed.

Lemma stored_completions cs : wf_completions cs -> wf_completions (stored cs).
Proof. intros (A & B & C). split; [now apply stored_sorted|]. split; [now apply stored_nonempty|now apply stored_Forall]. Qed.

(** ** The builder reads only the stored strings *)
Section Builder.
  Variable wr : list N -> list N -> res (list N).
  Variable wh : list N -> list N.

  Lemma write_bucket_app rest k prev input mb mb' input' :
    fc_write_bucket wr k prev input mb = Ok (mb', input') ->
    fc_write_bucket wr k prev (input ++ rest) mb = Ok (mb', input' ++ rest).
  Proof.
    revert prev input mb; induction k as [|k IH]; intros prev input mb; cbn.
    - intros H. injection H as <- <-. reflexivity.
    - destruct input as [|c input]; [discriminate|]. cbn [app].
      destruct (wr prev c) as [e| | |]; cbn [bind]; try discriminate. apply IH.
  Qed.

  Lemma write_buckets_app rest r tail input ph pb hd mb x :
    fc_write_buckets wr wh r tail input ph pb hd mb = Ok x ->
    fc_write_buckets wr wh r tail (input ++ rest) ph pb hd mb = Ok x.
  Proof.
    revert input ph pb hd mb; induction r as [|r IH]; intros input ph pb hd mb; cbn [fc_write_buckets]; [auto|].
    destruct input as [|header input]; [discriminate|]. cbn [app].
    destruct (fc_write_bucket wr (if r =? 0 then tail else BUCKET) header input mb) as [[mb' input']| | |] eqn:E; cbn [bind]; try discriminate.
    rewrite (write_bucket_app rest _ _ _ _ _ _ E). cbn [bind]. apply IH.
  Qed.
End Builder.

Lemma buckets_multiple m : fc_num_buckets ((BUCKET + 1) * m + (BUCKET + 1)) = m + 1.
Proof.
  unfold fc_num_buckets. replace ((BUCKET + 1) * m + (BUCKET + 1) + BUCKET) with (BUCKET + (m + 1) * (BUCKET + 1)) by lia.
  rewrite Nat.div_add, Nat.div_small by lia. reflexivity.
Qed.

Lemma tail_multiple m : fc_tail ((BUCKET + 1) * m + (BUCKET + 1)) = 0.
Proof.
  unfold fc_tail. replace ((BUCKET + 1) * m + (BUCKET + 1)) with ((m + 1) * (BUCKET + 1)) by lia.
  rewrite Nat.div_mul, Nat.sub_diag by lia. reflexivity.
Qed.

Lemma num_buckets_stored {A} (l : list A) : fc_num_buckets (length (stored l)) = fc_num_buckets (length l).
Proof.
  rewrite stored_length. destruct (Nat.eqb_spec (length l mod (BUCKET + 1)) 0) as [Z|Z]; [|reflexivity].
  destruct (Nat.eq_dec (length l) 0) as [E0|E0]; [rewrite E0; reflexivity|]. destruct (multiple_of_bucket _ E0 Z) as [m ->].
  rewrite buckets_multiple. unfold fc_num_buckets.
  replace ((BUCKET + 1) * m + (BUCKET + 1) - BUCKET + BUCKET) with ((m + 1) * (BUCKET + 1)) by lia. now rewrite Nat.div_mul by lia.
Qed.

Lemma tail_stored {A} (l : list A) : fc_tail (length (stored l)) = fc_tail (length l).
Proof.
  rewrite stored_length. destruct (Nat.eqb_spec (length l mod (BUCKET + 1)) 0) as [Z|Z]; [|reflexivity].
  destruct (Nat.eq_dec (length l) 0) as [E0|E0]; [rewrite E0; reflexivity|]. destruct (multiple_of_bucket _ E0 Z) as [m ->].
  rewrite tail_multiple. unfold fc_tail. pose proof bucket_pos.
  replace ((BUCKET + 1) * m + (BUCKET + 1) - BUCKET) with (1 + m * (BUCKET + 1)) by lia.
  rewrite Nat.div_add, Nat.div_small by lia. rewrite Nat.add_0_l, Nat.add_sub. reflexivity.
Qed.

(** [d] with [n] as its size. *)
Definition resized (d : fcd) (n : nat) : fcd := Fcd n (fc_ph d) (fc_pb d) (fc_hdrs d) (fc_bkts d).

Lemma fc_build_stored terms d : fc_build (stored terms) = Ok d -> fc_build terms = Ok (resized d (length terms)).
Proof.
  unfold fc_build. rewrite num_buckets_stored, tail_stored. destruct (stored_split terms) as [rest E].
  destruct (fc_write_buckets _ _ _ _ (stored terms) _ _ _ _) as [[[[ph pb] hd] mb]| | |] eqn:Ew; cbn [bind]; try discriminate.
  intros H. injection H as <-. rewrite E at 3. rewrite (write_buckets_app _ _ rest _ _ _ _ _ _ _ _ Ew). reflexivity.
Qed.

Lemma ifc_build_stored input d : ifc_build (stored input) = Ok d -> ifc_build input = Ok (resized d (length input)).
Proof.
  unfold ifc_build. rewrite num_buckets_stored, tail_stored. destruct (stored_split input) as [rest E].
  destruct (fc_write_buckets _ _ _ _ (stored input) _ _ _ _) as [[[[ph pb] hd] mb]| | |] eqn:Ew; cbn [bind]; try discriminate.
  intros H. injection H as <-. rewrite E at 3. rewrite (write_buckets_app _ _ rest _ _ _ _ _ _ _ _ Ew). reflexivity.
Qed.

(** ** A dictionary whose size is another one with the same last bucket answers the same *)
Section Resized.
  Variables (d : fcd) (n : nat).
  Hypothesis Htail : fc_tail n = fc_tail (fc_size d).

  Lemma resized_bucket_size b : fc_bucket_size (resized d n) b = fc_bucket_size d b.
  Proof using Htail. unfold fc_bucket_size, fc_buckets, resized; cbn [fc_ph fc_size]. now rewrite Htail. Qed.

  Lemma resized_scan {R} dec w h b (test : nat -> list N -> option R) stop buf :
    fc_scan_bucket dec w (resized d n) h b test stop buf = fc_scan_bucket dec w d h b test stop buf.
  Proof using Htail.
    unfold fc_scan_bucket. rewrite resized_bucket_size. reflexivity.
  Qed.

  Lemma resized_extract id out base : fc_extract (resized d n) id out base = fc_extract d id out base.
  Proof using Type. reflexivity. Qed.

  Lemma resized_locate t dec : fc_locate (resized d n) t dec = fc_locate d t dec.
  Proof using Htail.
    unfold fc_locate. cbv [fc_locate_in].
    change (fc_header (resized d n)) with (fc_header d). change (fc_buckets (resized d n)) with (fc_buckets d).
    change (fc_bkts (resized d n)) with (fc_bkts d).
    destruct (locate_bucket _ _ _ _ _) as [[[ish h] b]| | |]; cbn [bind]; try reflexivity.
    destruct ish; [reflexivity|]. now rewrite resized_scan.
  Qed.

  Lemma resized_locate_prefix p dl dr : p <> [] -> fc_locate_prefix (resized d n) p dl dr = fc_locate_prefix d p dl dr.
  Proof using Htail.
    intros Hp. unfold fc_locate_prefix. destruct (Nat.eqb_spec (length p) 0) as [E|_]; [destruct p; [congruence|discriminate]|].
    change (fc_locate_buckets (resized d n) p) with (fc_locate_buckets d p).
    destruct (fc_locate_buckets d p) as [[bb be]| | |]; cbn [bind]; try reflexivity.
    change (fc_header (resized d n)) with (fc_header d).
    destruct (fc_header d bb) as [hb| | |]; cbn [bind]; try reflexivity.
    destruct (fc_header d be) as [he| | |]; cbn [bind]; try reflexivity.
    cbv [fc_left_locate fc_right_locate]. change (fc_bkts (resized d n)) with (fc_bkts d).
    rewrite resized_scan.
    match goal with |- bind ?e _ = bind ?e' _ => change e with e'; destruct e' as [[pb dl']| | |]; cbn [bind]; try reflexivity end.
    now rewrite resized_scan.
  Qed.

  Lemma resized_ifc_extract id out : ifc_extract (resized d n) id out = ifc_extract d id out.
  Proof using Type. reflexivity. Qed.

  Lemma resized_ifc_locate c dec : ifc_locate (resized d n) c dec = ifc_locate d c dec.
  Proof using Htail.
    unfold ifc_locate. cbv [ifc_locate_in].
    change (fc_header (resized d n)) with (fc_header d). change (fc_buckets (resized d n)) with (fc_buckets d).
    change (fc_bkts (resized d n)) with (fc_bkts d).
    destruct (locate_bucket _ _ _ _ _) as [[[ish h] b]| | |]; cbn [bind]; try reflexivity.
    destruct ish; [reflexivity|]. now rewrite resized_scan.
  Qed.

  Lemma resized_ifc_locate_prefix prefix a b dl dr :
    ifc_locate_prefix (resized d n) prefix a b dl dr = ifc_locate_prefix d prefix a b dl dr.
  Proof using Htail.
    unfold ifc_locate_prefix. cbv [ifc_left_locate ifc_right_locate].
    change (fc_header (resized d n)) with (fc_header d). change (fc_buckets (resized d n)) with (fc_buckets d).
    change (fc_bkts (resized d n)) with (fc_bkts d).
    destruct (locate_bucket _ _ _ _ _) as [[[ish h] bb]| | |]; cbn [bind]; try reflexivity.
    rewrite resized_scan.
    match goal with |- bind ?e _ = bind ?e' _ => change e with e'; destruct e' as [[pb dl']| | |]; cbn [bind]; try reflexivity end.
    match goal with |- context [ifc_locate_right_bucket (resized d n) ?q ?b0] =>
      change (ifc_locate_right_bucket (resized d n) q b0) with (ifc_locate_right_bucket d q b0);
      destruct (ifc_locate_right_bucket d q b0) as [[he be]| | |]; cbn [bind]; try reflexivity end.
    now rewrite resized_scan.
  Qed.
End Resized.

(** ** Reading a string that was not stored *)

(** The cursor of the last bucket is at the end of the data when the bucket holds its header only. *)
Section Lost.
  Variable wr : list N -> list N -> list N.
  Variable PAD : nat.
  Variable term : list N -> list N.
  Variable R : list N -> list N -> Prop.
  Variable wrR : list N -> list N -> res (list N).
  Variable wh : list N -> list N.
  Hypothesis Hwr : forall p s, R p s -> wrR (term p) (term s) = Ok (wr p s).
  Hypothesis Hwh : forall h, wh (term h) = h.

  Lemma last_bucket_end terms nb x :
    adj R terms -> nb <> 0 -> (nb - 1) * (BUCKET + 1) + 1 <= length terms ->
    fc_write_buckets wrR wh nb 0 (map term terms) [0] [0] [] [] = Ok x ->
    let '(ph, pb, hd, mb) := x in get pb (nb - 1) = Ok (length mb).
  Proof using Hwr Hwh.
    intros Hadj Hnb Hlen. rewrite (write_buckets_ok term R wrR wr wh Hwr Hwh) by (auto; right; lia).
    intros H. injection H as <-. set (cs := chunks nb 0 terms). set (es := map (fun c => encs wr (List.hd [] c) (tl c)) cs).
    assert (Hcs : length cs = nb) by apply chunks_length.
    assert (Hes : length es = nb) by (subst es; rewrite map_length; exact Hcs).
    assert (Elast : nth_error es (nb - 1) = Some []).
    { subst es cs. rewrite nth_error_map, chunks_nth by lia. rewrite Nat.eqb_refl. cbn [option_map]. f_equal.
      destruct (skipn ((nb - 1) * (BUCKET + 1)) terms); reflexivity. }
    apply get_ok. change ([0] ++ psums (length (@nil N)) es) with (0 :: psums 0 es).
    rewrite (psums_nth es 0 (nb - 1)) by lia. f_equal. rewrite Nat.add_0_l.
    pose proof (concat_firstn_S es (nb - 1) [] Elast) as E. cbn [length] in E. rewrite firstn_all2 in E by lia. cbn [app]. lia.
  Qed.
End Lost.

(** Reading one string of such a bucket runs past the padding. *)
Lemma get_pad mb PAD i : i < PAD -> get (mb ++ repeat 0%N PAD) (length mb + i) = Ok 0%N.
Proof.
  intros H. apply get_ok. rewrite nth_error_app2 by lia. replace (length mb + i - length mb) with i by lia.
  now apply nth_error_repeat.
Qed.

Lemma fc_decode_end mb out base : fc_decode (mb ++ repeat 0%N MAX_CHARS) (length mb) out base = UB.
Proof.
  unfold fc_decode. pose proof (get_pad mb MAX_CHARS 0 ltac:(unfold MAX_CHARS; lia)) as E0. rewrite Nat.add_0_r in E0. rewrite E0. cbn [bind].
  rewrite (get_pad mb MAX_CHARS 1) by (unfold MAX_CHARS; lia). cbn [bind].
  unfold slice. rewrite app_length, repeat_length. unfold MAX_CHARS.
  destruct (Nat.leb_spec (length mb + 2 + 128) (length mb + 128)); [lia|reflexivity].
Qed.

Lemma ifc_decode_end mb out base : ifc_decode (mb ++ repeat 0%N (MAX_TERMS * 4)) (length mb) out base = UB.
Proof.
  unfold ifc_decode. pose proof (get_pad mb (MAX_TERMS * 4) 0 ltac:(unfold MAX_TERMS; lia)) as E0. rewrite Nat.add_0_r in E0. rewrite E0. cbn [bind].
  rewrite (get_pad mb (MAX_TERMS * 4) 1) by (unfold MAX_TERMS; lia). cbn [bind].
  unfold slice. rewrite app_length, repeat_length. unfold MAX_TERMS.
  destruct (Nat.leb_spec (length mb + 2 + 64 * 4) (length mb + 64 * 4)); [lia|reflexivity].
Qed.

Lemma lost_bucket {A} (l : list A) i : length (stored l) <= i < length l ->
  i / (BUCKET + 1) = fc_num_buckets (length l) - 1 /\ 0 < i mod (BUCKET + 1) /\ fc_tail (length l) = 0 /\ fc_num_buckets (length l) <> 0 /\
  (fc_num_buckets (length l) - 1) * (BUCKET + 1) + 1 <= length (stored l).
Proof.
  rewrite stored_length. destruct (Nat.eqb_spec (length l mod (BUCKET + 1)) 0) as [Z|Z]; [|lia]. intros Hi.
  destruct (multiple_of_bucket (length l) ltac:(lia) Z) as [m E]. rewrite E in *.
  pose proof (buckets_multiple m) as Eb.
  rewrite Eb. split; [|split; [|split; [|lia]]].
  - symmetry. apply Nat.div_unique with (r := i - (BUCKET + 1) * m); lia.
  - replace i with (i - (BUCKET + 1) * m + m * (BUCKET + 1)) by lia. rewrite Nat.mod_add by lia. rewrite Nat.mod_small by lia. lia.
  - apply tail_multiple.
Qed.

Lemma not_ok_UB {A B} (r : res A) (f : A -> res B) : (forall x, f x = UB) -> (exists x, r = Ok x) \/ r = UB -> bind r f = UB.
Proof. intros H [[x ->]| ->]; [apply H|reflexivity]. Qed.

Lemma blit_cases {A} (l : list A) i src : (exists x, blit l i src = Ok x) \/ blit l i src = UB.
Proof. unfold blit. destruct (_ <=? _); eauto. Qed.

Lemma fc_extract_lost terms d id out base :
  wf_vocab terms -> fc_build terms = Ok d -> length (stored terms) < id <= length terms -> fc_extract d id out base = UB.
Proof.
  intros W E Hid. destruct id as [|i]; [lia|].
  destruct (lost_bucket terms i ltac:(lia)) as (Eb & Hk & Et & Hnb & Hlen).
  destruct (fc_build_layout terms (proj1 (proj2 W))) as (d' & E' & L). rewrite E in E'. injection E' as <-.
  unfold fc_build in E. rewrite Et in E.
  destruct (fc_write_buckets _ _ _ _ terms _ _ _ _) as [[[[ph pb] hd] mb]| | |] eqn:Ew; cbn [bind] in E; try discriminate.
  injection E as <-.
  assert (Epb : get pb (fc_num_buckets (length terms) - 1) = Ok (length mb)).
  { rewrite <- (map_id terms) in Ew at 2.
    refine (last_bucket_end fc_write (fun s => s) (fun _ _ => True) (fun p s => Ok (fc_write p s)) (fun h => h) _ _ terms _ _ _ Hnb _ Ew); auto.
    - clear. induction terms as [|x [|y l] IH]; cbn; auto.
    - pose proof (stored_le terms). lia. }
  unfold fc_extract, fc_extract_at. rewrite Eb.
  rewrite (lay_header _ _ _ _ L) by lia. cbn [bind fc_bkts fc_pb].
  apply not_ok_UB; [|apply blit_cases]. intros out'. cbn [fc_pb]. rewrite Epb. cbn [bind].
  destruct (i mod (BUCKET + 1)) as [|k]; [lia|]. cbn [fc_extract_loop fc_bkts]. now rewrite fc_decode_end.
Qed.

Lemma ifc_extract_lost cs d id out :
  wf_completions cs -> ifc_build (map terminated cs) = Ok d -> length (stored cs) <= id < length cs -> ifc_extract d id out = UB.
Proof.
  intros W E Hid.
  destruct (lost_bucket cs id Hid) as (Eb & Hk & Et & Hnb & Hlen).
  destruct (ifc_build_layout cs W) as (d' & E' & L). rewrite E in E'. injection E' as <-.
  unfold ifc_build in E. rewrite map_length, Et in E.
  destruct (fc_write_buckets _ _ _ _ (map terminated cs) _ _ _ _) as [[[[ph pb] hd] mb]| | |] eqn:Ew; cbn [bind] in E; try discriminate.
  injection E as <-.
  assert (Epb : get pb (fc_num_buckets (length cs) - 1) = Ok (length mb)).
  { refine (last_bucket_end ifc_enc terminated ifc_rel ifc_write ifc_write_header ifc_write_ok ifc_write_header_ok cs _ _ _ Hnb _ Ew).
    - destruct W as (A & _ & B). now apply wf_completions_adj.
    - pose proof (stored_le cs). lia. }
  unfold ifc_extract, fc_extract_at. rewrite Eb.
  rewrite (lay_header _ _ _ _ L) by lia. cbn [bind fc_bkts fc_pb].
  apply not_ok_UB; [|apply blit_cases]. intros out'. cbn [fc_pb]. rewrite Epb. cbn [bind].
  destruct (id mod (BUCKET + 1)) as [|k]; [lia|]. cbn [fc_extract_loop fc_bkts]. now rewrite ifc_decode_end.
Qed.

(** Behind the last bucket there is no header to read. *)
Lemma ifc_extract_beyond cs d id out :
  wf_completions cs -> ifc_build (map terminated cs) = Ok d -> fc_num_buckets (length cs) <= id / (BUCKET + 1) -> ifc_extract d id out = UB.
Proof.
  intros W E Hid. destruct (ifc_build_layout cs W) as (d' & E' & L). rewrite E in E'. injection E' as <-.
  unfold ifc_extract, fc_extract_at. unfold fc_header.
  pose proof (lay_buckets _ _ _ _ L) as Hb. unfold fc_buckets in Hb.
  destruct (get (fc_ph d) (id / (BUCKET + 1))) as [b| | |] eqn:Eb; try reflexivity; try (unfold get in Eb; destruct (nth_error _ _); discriminate).
  cbn [bind]. assert (En : get (fc_ph d) (id / (BUCKET + 1) + 1) = UB); [|now rewrite En].
  unfold get. assert (nth_error (fc_ph d) (id / (BUCKET + 1) + 1) = None) as ->; [|reflexivity]. apply nth_error_None. lia.
Qed.
Lemma buckets_beyond n v : n <> 0 -> n mod (BUCKET + 1) = 0 -> n <= v -> fc_num_buckets n <= v / (BUCKET + 1).
Proof.
  intros H0 H Hv. destruct (multiple_of_bucket n H0 H) as [m ->]. rewrite buckets_multiple.
  apply Nat.div_le_lower_bound; lia.
Qed.

(** ** Whole dictionaries, every size *)
Lemma fc_build_any terms : wf_vocab terms ->
  exists d d', fc_build terms = Ok d /\ fc_layout d' (stored terms) /\ d = resized d' (length terms) /\
    fc_tail (length terms) = fc_tail (fc_size d').
Proof.
  intros W. destruct (fc_build_layout (stored terms)) as (d' & E & L); [apply stored_nonempty; apply W|].
  exists (resized d' (length terms)), d'. split; [now apply fc_build_stored|]. split; [exact L|]. split; [reflexivity|].
  rewrite (lay_size _ _ _ _ L). symmetry. apply tail_stored.
Qed.

Lemma ifc_build_any cs : wf_completions cs ->
  exists d d', ifc_build (map terminated cs) = Ok d /\ ifc_layout d' (stored cs) /\ d = resized d' (length cs) /\
    fc_tail (length cs) = fc_tail (fc_size d').
Proof.
  intros W. destruct (ifc_build_layout (stored cs)) as (d' & E & L); [now apply stored_completions|].
  exists (resized d' (length cs)), d'. split.
  { rewrite <- (map_length terminated cs). apply ifc_build_stored. now rewrite stored_map. }
  split; [exact L|]. split; [reflexivity|]. rewrite (lay_size _ _ _ _ L). symmetry. apply tail_stored.
Qed.

Lemma fc_extract_any terms : wf_vocab terms ->
  exists d, fc_build terms = Ok d /\
    (forall i t, nth_error (stored terms) i = Some t -> forall out base, base + 256 <= length out ->
       exists out', fc_extract d (i + 1) out base = Ok (length t, out') /\
         length out' = length out /\ firstn base out' = firstn base out /\ firstn (length t) (skipn base out') = t) /\
    (forall i, length (stored terms) <= i < length terms -> forall out base, fc_extract d (i + 1) out base = UB).
Proof.
  intros W. destruct (fc_build_any terms W) as (d & d' & E & L & Ed & Et). exists d. split; [exact E|]. split.
  - intros i t Hi out base Hout. apply (nth_error_nth_iff (stored terms) i []) in Hi as [Hi <-]. rewrite Ed, resized_extract.
    pose proof (fc_extract_ok d' (stored terms) (i + 1) out base L (stored_vocab _ W) (stored_not_multiple _ (proj1 (proj2 W))) ltac:(lia) Hout) as H.
    replace (i + 1 - 1) with i in H by lia. exact H.
  - intros i Hi out base. apply (fc_extract_lost terms d); auto; lia.
Qed.

Lemma fc_locate_any terms : wf_vocab terms ->
  exists d, fc_build terms = Ok d /\
    forall t dec, length dec = 256 ->
    exists r dec', fc_locate d t dec = Ok (r, dec') /\ length dec' = 256 /\
      forall id, r = Some id <-> (1 <= id /\ nth_error (stored terms) (id - 1) = Some t).
Proof.
  intros W. destruct (fc_build_any terms W) as (d & d' & E & L & Ed & Et). exists d. split; [exact E|].
  intros t dec Hdec. rewrite Ed, (resized_locate _ _ Et).
  destruct (fc_locate_ok d' (stored terms) t dec L (stored_vocab _ W) (stored_not_multiple _ (proj1 (proj2 W))) Hdec) as (r & dec' & El & Hd & Hr).
  exists r, dec'. split; [exact El|]. split; [exact Hd|].
  intros id. destruct r as [id'|].
  - destruct Hr as [Hid' Hn']. split.
    + intros H. injection H as <-. split; [lia|].
      apply (nth_error_nth_iff (stored terms) _ []). split; [lia|assumption].
    + intros [Hid Hn]. apply (nth_error_nth_iff (stored terms) _ []) in Hn as [Hlt Hn]. f_equal.
      assert (id' - 1 = id - 1); [|lia].
      apply (lex_sorted_nth_inj (stored terms) _ _ []); [apply stored_vocab; exact W|lia|lia|congruence].
  - split; [discriminate|]. intros [Hid Hn]. exfalso. apply Hr. eapply nth_error_In; eassumption.
Qed.

Lemma fc_locate_prefix_any terms : wf_vocab terms ->
  exists d, fc_build terms = Ok d /\
    forall p dl dr, length dl = 256 -> length dr = 256 ->
    exists r dl' dr', fc_locate_prefix d p dl dr = Ok (r, dl', dr') /\
      length dl' = 256 /\ length dr' = 256 /\
      (p = [] -> r = Some (0, length terms - 1)) /\
      (p <> [] -> match r with
        | Some (a, b) => exact_range (length (stored terms)) (fun i => found_by (nth 0 terms []) p (nth i terms [])) a b
        | None => forall i, i < length (stored terms) -> ~ found_by (nth 0 terms []) p (nth i terms [])
        end).
Proof.
  intros W. destruct (fc_build_any terms W) as (d & d' & E & L & Ed & Et). exists d. split; [exact E|].
  intros p dl dr Hdl Hdr. destruct p as [|x p].
  - unfold fc_locate_prefix. rewrite Ed. cbn [length Nat.eqb resized fc_size].
    do 3 eexists. split; [reflexivity|]. split; [assumption|]. split; [assumption|]. split; [reflexivity|congruence].
  - rewrite Ed, (resized_locate_prefix _ _ Et) by discriminate.
    pose proof (stored_nonempty terms (proj1 (proj2 W))) as Hne.
    assert (Hpos : 0 < length (stored terms)) by (destruct (stored terms); [congruence|cbn; lia]).
    destruct (locate_prefix_all_ok d' (stored terms) (x :: p) dl dr L (stored_vocab _ W) (stored_not_multiple _ (proj1 (proj2 W))) Hdl Hdr)
      as (r & dl' & dr' & E1 & L1 & L2 & Hr).
    exists r, dl', dr'. split; [exact E1|]. split; [exact L1|]. split; [exact L2|]. split; [discriminate|]. intros _.
    destruct r as [[a b]|].
    + destruct Hr as [Hab Hr]. split; [exact Hab|]. intros i Hi. rewrite (Hr i Hi). now rewrite !stored_nth by assumption.
    + intros i Hi. specialize (Hr i Hi). now rewrite !stored_nth in Hr by assumption.
Qed.

Lemma ifc_extract_any cs : wf_completions cs ->
  exists d, ifc_build (map terminated cs) = Ok d /\
    (forall i c, nth_error (stored cs) i = Some c -> forall out, 128 <= length out ->
       exists out', ifc_extract d i out = Ok (length c, out') /\ length out' = length out /\ firstn (length c) out' = c) /\
    (forall i, length (stored cs) <= i < length cs -> forall out, ifc_extract d i out = UB).
Proof.
  intros W. destruct (ifc_build_any cs W) as (d & d' & E & L & Ed & Et). exists d. split; [exact E|]. split.
  - intros i c Hi out Hout. apply (nth_error_nth_iff (stored cs) i []) in Hi as [Hi <-]. rewrite Ed, resized_ifc_extract.
    exact (ifc_extract_ok d' (stored cs) i out L (stored_completions _ W) (stored_not_multiple _ (proj1 (proj2 W))) Hi Hout).
  - intros i Hi out. now apply (ifc_extract_lost cs d).
Qed.

Lemma ifc_locate_prefix_any cs : wf_completions cs ->
  exists d, ifc_build (map terminated cs) = Ok d /\
    forall prefix a b dl dr,
    (a <= b < 4294967296)%N -> length dl = 128 -> length dr = 128 ->
    exists r prefix' dl' dr',
      ifc_locate_prefix d prefix a b dl dr = Ok (r, prefix', dl', dr') /\
      length dl' = 128 /\ length dr' = 128 /\
      (r <> None \/ a <> b -> prefix' = prefix) /\ (r = None /\ a = b -> prefix' = prefix ++ [a]) /\
      match r with
      | Some (i, j) => exact_range_excl (length (stored cs)) (fun k => continues_found (nth 0 cs []) prefix a b (nth k cs [])) i j
      | None => forall k, k < length (stored cs) -> ~ continues_found (nth 0 cs []) prefix a b (nth k cs [])
      end.
Proof.
  intros W. destruct (ifc_build_any cs W) as (d & d' & E & L & Ed & Et). exists d. split; [exact E|].
  intros prefix a b dl dr Hab Hdl Hdr. rewrite Ed, (resized_ifc_locate_prefix _ _ Et).
  pose proof (stored_nonempty cs (proj1 (proj2 W))) as Hne.
  assert (Hpos : 0 < length (stored cs)) by (destruct (stored cs); [congruence|cbn; lia]).
  destruct (ifc_locate_prefix_exact d' (stored cs) prefix a b dl dr L (stored_completions _ W) (stored_not_multiple _ (proj1 (proj2 W))) Hab Hdl Hdr)
    as (r & prefix' & dl' & dr' & E1 & L1 & L2 & A & B & Hr).
  exists r, prefix', dl', dr'. split; [exact E1|]. split; [exact L1|]. split; [exact L2|]. split; [exact A|]. split; [exact B|].
  destruct r as [[i j]|].
  + destruct Hr as [Hij Hr]. split; [exact Hij|]. intros k Hk. rewrite (Hr k Hk). now rewrite !stored_nth by assumption.
  + intros k Hk. specialize (Hr k Hk). now rewrite !stored_nth in Hr by assumption.
Qed.

(** ** locate of a sequence that is not stored (F4) *)
Lemma bsz_le n b : bsz n b <= BUCKET.
Proof.
  unfold bsz, fc_tail. destruct (b =? fc_num_buckets n - 1); [|lia].
  pose proof (Nat.div_mod n (BUCKET + 1) ltac:(lia)). pose proof (Nat.mod_upper_bound n (BUCKET + 1) ltac:(lia)).
  destruct (n - n / (BUCKET + 1) * (BUCKET + 1) =? 0); lia.
Qed.

Lemma ifc_locate_absent d cs t i dec :
  ifc_layout d cs -> wf_completions cs -> not_multiple (length cs) -> length dec = 2 * MAX_TERMS ->
  i <= length cs -> (forall j, j < i -> lex_lt (nth j cs []) t) -> (forall j, i <= j < length cs -> lex_lt t (nth j cs [])) ->
  (i mod (BUCKET + 1) <> 0 /\ i < length cs \/ i = 0 /\ 1 < length cs ->
     exists dec', ifc_locate d t dec = Ok (None, dec') /\ length dec' = 2 * MAX_TERMS) /\
  (i mod (BUCKET + 1) = 0 /\ i <> 0 \/ i = length cs \/ length cs = 1 -> ifc_locate d t dec = UB).
Proof.
  intros L W H17 Hdec Hi Hlt Hgt.
  assert (Hn : 0 < length cs) by (destruct W as (_ & Hne & _); destruct cs; [congruence|cbn; lia]).
  assert (Hno : forall j, j < length cs -> nth j cs [] <> t).
  { intros j Hj E. destruct (Nat.lt_ge_cases j i) as [H|H]; [specialize (Hlt j H)|specialize (Hgt j ltac:(lia))]; rewrite E in *; eapply lex_irrefl; eassumption. }
  assert (Hcmp : forall j, j < length cs -> (lex_lt (nth j cs []) t -> j < i) /\ (lex_lt t (nth j cs []) -> i <= j)).
  { intros j Hj. split; intros H; destruct (Nat.lt_ge_cases j i) as [Hc|Hc]; auto; exfalso.
    - apply (lex_asym _ _ H). apply Hgt. lia.
    - apply (lex_asym _ _ H). now apply Hlt. }
  destruct (ifc_locate_bucket_ok d cs L W H17 t) as (ish & b & E & Hb & H1 & H2).
  pose proof (nb_bound (length cs) b Hn Hb) as Hbd.
  unfold ifc_locate. rewrite E. cbn [bind]. destruct ish.
  { exfalso. apply (Hno (b * (BUCKET + 1))); [lia|auto]. }
  destruct (H2 eq_refl) as [Hlow Hhigh]. clear H1 H2. unfold ifc_locate_in.
  assert (Hlow' : b = 0 /\ i = 0 \/ b * (BUCKET + 1) < i).
  { destruct Hlow as [[-> Hl]|Hl]; [left|right; apply Hcmp; [lia|exact Hl]]. split; [reflexivity|]. apply (Hcmp 0 Hn) in Hl. lia. }
  match goal with |- context [fc_scan_bucket _ _ _ _ _ ?tst ?stp _] =>
    destruct (ifc_scan_spec d cs L W H17 b tst stp dec Hb Hdec) as (dec' & Hl' & [(j & r & Hj & Ht & Es & Hbef)|[Es Hall]])
  end; cbv beta zeta in *; rewrite Es; cbn [bind].
  - destruct (uint32_compare_correct t (nth (b * (BUCKET + 1) + j) cs [])) as (C1 & C2 & C3).
    assert (Hr : r = None /\ lex_lt t (nth (b * (BUCKET + 1) + j) cs [])).
    { destruct (Z.eqb_spec (uint32_range_compare t (nth (b * (BUCKET + 1) + j) cs [])) 0) as [Ez|Nz].
      - exfalso. apply (Hno (b * (BUCKET + 1) + j)); [lia|]. symmetry. now apply C2.
      - destruct (Z.ltb_spec (uint32_range_compare t (nth (b * (BUCKET + 1) + j) cs [])) 0) as [Hl|]; [|discriminate].
        injection Ht as <-. split; [reflexivity|]. now apply C1. }
    destruct Hr as [-> Hr]. apply Hcmp in Hr; [|lia].
    split; [eauto|]. intros Hc. exfalso.
    pose proof (bsz_le (length cs) b) as Hj16.
    destruct Hc as [[Hc1 Hc2]|[Hc|Hc]]; [|lia|].
    + destruct Hlow' as [[_ Hl]|Hl]; [lia|].
      pose proof (Nat.div_mod i (BUCKET + 1) ltac:(lia)) as Ei. rewrite (Nat.mul_comm (BUCKET + 1)) in Ei.
      destruct (Nat.lt_ge_cases b (i / (BUCKET + 1))) as [Hq|Hq];
        [pose proof (bucket_mul _ _ Hq)|pose proof (Nat.mul_le_mono_r _ _ (BUCKET + 1) Hq)]; Lia.lia.
    + destruct Hlow' as [[Hb0 Hl]|Hl]; lia.
  - assert (Hall' : forall j, 1 <= j <= bsz (length cs) b -> b * (BUCKET + 1) + j < i).
    { intros j Hj. specialize (Hall j Hj). destruct (uint32_compare_correct t (nth (b * (BUCKET + 1) + j) cs [])) as (C1 & C2 & C3).
      apply Hcmp; [lia|]. destruct (lex_total t (nth (b * (BUCKET + 1) + j) cs [])) as [H|[H|H]]; [| |exact H]; exfalso.
      - apply C1 in H. destruct (Z.eqb_spec (uint32_range_compare t (nth (b * (BUCKET + 1) + j) cs [])) 0); [lia|].
        destruct (Z.ltb_spec (uint32_range_compare t (nth (b * (BUCKET + 1) + j) cs [])) 0); [discriminate|lia].
      - apply C2 in H. rewrite H in Hall. discriminate. }
    split; [|reflexivity]. intros Hc. exfalso.
    pose proof (num_buckets_total _ H17) as Htot. 
    destruct (Nat.eq_dec b (fc_num_buckets (length cs) - 1)) as [Eb|Nb].
    + assert (Ebs : bsz (length cs) b = fc_tail (length cs)) by (unfold bsz; rewrite Eb, Nat.eqb_refl; reflexivity).
      rewrite Ebs in Hall'. rewrite <- Eb in Htot.
      destruct (Nat.eq_dec (fc_tail (length cs)) 0) as [Z|Z].
      * destruct Hc as [[Hc1 Hc2]|[Hc Hc2]]; [|destruct Hlow' as [[-> _]|Hl]; lia].
        destruct Hlow' as [[-> ->]|Hl]; [apply Hc1, Nat.mod_0_l; lia|lia].
      * specialize (Hall' (fc_tail (length cs)) ltac:(lia)). lia.
    + assert (Ebs : bsz (length cs) b = BUCKET) by (unfold bsz; destruct (Nat.eqb_spec b (fc_num_buckets (length cs) - 1)); [lia|reflexivity]).
      rewrite Ebs in Hall'. specialize (Hall' BUCKET ltac:(pose proof bucket_pos; lia)).
      specialize (Hhigh (b + 1) ltac:(lia)).
      pose proof (nb_bound (length cs) (b + 1) Hn ltac:(lia)). apply Hcmp in Hhigh; [|lia].
      assert (i = (b + 1) * (BUCKET + 1)) as -> by lia. rewrite Nat.mod_mul in Hc by lia. lia.
Qed.

Lemma sorted_position cs c : lex_sorted cs -> (exists i, nth_error cs i = Some c) \/ exists i, falls_at cs c i.
Proof.
  induction cs as [|a cs IH]; intros Hs.
  - right. exists 0. split; [cbn; lia|]. split; intros j Hj; cbn in Hj; lia.
  - destruct (lex_total c a) as [H|[H|H]].
    + right. exists 0. split; [cbn; lia|]. split; [intros j Hj; lia|]. intros [|j] Hj; [exact H|]. cbn [nth].
      apply lex_trans with a; [exact H|]. apply (lex_sorted_head _ _ _ Hs). apply nth_In. cbn [length] in Hj. lia.
    + left. exists 0. now rewrite H.
    + destruct (IH (lex_sorted_tl _ _ Hs)) as [[i Hi]|[i (H1 & H2 & H3)]]; [left; now exists (S i)|right; exists (S i)].
      split; [cbn [length]; lia|]. split.
      * intros [|j] Hj; [exact H|]. cbn [nth]. apply H2. lia.
      * intros [|j] Hj; [lia|]. cbn [nth]. apply H3. cbn [length] in Hj. lia.
Qed.

Lemma ifc_locate_any cs : wf_completions cs ->
  exists d, ifc_build (map terminated cs) = Ok d /\
    forall c dec, length dec = 128 ->
    (forall i, nth_error (stored cs) i = Some c ->
       exists dec', ifc_locate d c dec = Ok (Some i, dec') /\ length dec' = 128) /\
    (forall i, falls_at (stored cs) c i -> i mod (BUCKET + 1) <> 0 /\ i < length (stored cs) \/ i = 0 /\ 1 < length (stored cs) ->
       exists dec', ifc_locate d c dec = Ok (None, dec') /\ length dec' = 128) /\
    (forall i, falls_at (stored cs) c i -> i mod (BUCKET + 1) = 0 /\ i <> 0 \/ i = length (stored cs) \/ length (stored cs) = 1 ->
       ifc_locate d c dec = UB).
Proof.
  intros W. destruct (ifc_build_any cs W) as (d & d' & E & L & Ed & Et). exists d. split; [exact E|].
  intros c dec Hdec. rewrite Ed, (resized_ifc_locate _ _ Et). pose proof (stored_completions _ W) as W'.
  pose proof (stored_not_multiple _ (proj1 (proj2 W))) as H17. split; [|split].
  - destruct (ifc_locate_ok d' (stored cs) L W' H17 c dec Hdec) as [H1 _].
    intros i Hi. apply (nth_error_nth_iff (stored cs) i []) in Hi as [Hi Ei]. exact (H1 i Hi Ei).
  - intros i (A & B & C). exact (proj1 (ifc_locate_absent d' (stored cs) c i dec L W' H17 Hdec A B C)).
  - intros i (A & B & C). exact (proj2 (ifc_locate_absent d' (stored cs) c i dec L W' H17 Hdec A B C)).
Qed.

(** ** The docid -> lexid map *)
Lemma num_written_stored {A} (l : list A) : firstn (ifc_num_written (length l)) l = stored l.
Proof.
  destruct (Nat.eq_dec (length l) 0) as [E0|E0]; [destruct l; [|discriminate]; unfold stored; destruct (_ =? 0); now rewrite !firstn_nil|].
  unfold stored, ifc_num_written. destruct (fc_num_buckets (length l)) as [|r] eqn:Er.
  { exfalso. pose proof (num_buckets_pos (length l) ltac:(lia)). lia. }
  destruct (Nat.eqb_spec (length l mod (BUCKET + 1)) 0) as [Z|Z].
  - f_equal. destruct (multiple_of_bucket _ E0 Z) as [m E]. rewrite E in *.
    assert (r = m) as ->.
    { rewrite buckets_multiple in Er. lia. }
    rewrite tail_multiple.
    lia.
  - rewrite firstn_all2; [reflexivity|]. pose proof (num_buckets_total _ Z) as E. rewrite Er in E. lia.
Qed.

Lemma NoDup_stored {A} (l : list A) : NoDup l -> NoDup (stored l).
Proof.
  destruct (stored_split l) as [rest E]. intros H. rewrite E in H. clear E. induction (stored l) as [|x k IH]; [constructor|].
  cbn [app] in H. inversion H as [|y l' Hn Hd]; subst. constructor; [|auto]. intros Hin. apply Hn. apply in_or_app. now left.
Qed.

Lemma docid_to_lexid_any universe docs :
  NoDup docs -> (forall x, In x docs -> x < universe) ->
  exists m, ifc_docid_to_lexid universe docs = Ok m /\ length m = universe /\
    forall doc i, nth_error m doc = Some (Some i) <-> nth_error (stored docs) i = Some doc.
Proof.
  intros Hnd Hb. unfold ifc_docid_to_lexid. rewrite num_written_stored. set (k := stored docs).
  destruct (assign_lexids_ok k 0 (repeat None universe) (NoDup_stored _ Hnd)) as (m & E & Hl & H1 & H2).
  { intros x Hx. rewrite repeat_length. apply Hb. now apply stored_In. }
  exists m. split; [exact E|]. rewrite repeat_length in Hl. split; [exact Hl|].
  intros doc i. split; [|apply H1].
  intros Hm. destruct (in_dec Nat.eq_dec doc k) as [Hin|Hnin].
  - apply In_nth_error in Hin as [j Hj]. rewrite (H1 j doc Hj) in Hm. cbn in Hm. congruence.
  - rewrite H2 in Hm by assumption. apply nth_error_In in Hm. apply repeat_spec in Hm. discriminate.
Qed.
End Bucket.
