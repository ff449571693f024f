(** Dictionaries of 4 GiB and more. *)
From Verif Require Import Base S_Order S_Vocab S_Wide P_Order M_Fc M_Wide P_FcGen P_Fc M_Save P_Save P_Fit2.
Local Open Scope nat_scope.

Lemma wrap32_small n : (N.of_nat n < 4294967296)%N -> wrap32 n = n.
Proof. intros H. unfold wrap32. rewrite N.mod_small by exact H. lia. Qed.
Lemma wrap32_over n : (4294967296 <= N.of_nat n < 2 * 4294967296)%N -> (N.of_nat (wrap32 n) = N.of_nat n - 4294967296)%N.
Proof.
  intros H. unfold wrap32. rewrite N2Nat.id. symmetry. apply N.mod_unique with (q := 1%N); lia.
Qed.

Section Bucket.
  Context {bucket : bucket_size}.

  Lemma map_nth_seq {A B} (f : A -> B) (g : nat -> B) l a : (forall i x, nth_error l i = Some x -> f x = g (a + i)) -> map f l = map g (seq a (length l)).
  Proof.
    revert a; induction l as [|x l IH]; intros a H; [reflexivity|]. cbn [map length seq]. f_equal.
    - rewrite (H 0 x eq_refl). f_equal. lia.
    - apply IH. intros i y E. rewrite (H (S i) y E). f_equal. lia.
  Qed.

  (** The header pointers of a built dictionary. *)
  Lemma build_headers terms : terms <> [] -> exists d, fc_build terms = Ok d /\ fc_ph d = 0 :: psums 0 (firsts terms).
  Proof.
    intros Hne. unfold fc_build. set (n := length terms).
    assert (Hn : 0 < n) by (subst n; destruct terms; [congruence|cbn; lia]).
    pose proof (write_buckets_ok (fun s => s) (fun _ _ => True) (fun prev s => Ok (fc_write prev s)) fc_write (fun h => h)
      (fun _ _ _ => eq_refl) (fun _ => eq_refl) (fc_num_buckets n) (fc_tail n) terms [0] [0] [] []) as W.
    rewrite map_id in W. cbn zeta in W. rewrite W; clear W.
    - cbn [bind]. eexists. split; [reflexivity|]. cbn [fc_ph app length]. do 2 f_equal.
      unfold firsts. fold n. change ((n + BUCKET) / (BUCKET + 1)) with (fc_num_buckets n).
      rewrite <- (chunks_length (fc_num_buckets n) (fc_tail n) terms) at 2. apply map_nth_seq. intros b c E. cbn [Nat.add].
      assert (Hb : b < fc_num_buckets n). { rewrite <- (chunks_length (fc_num_buckets n) (fc_tail n) terms). apply nth_error_Some. congruence. }
      rewrite chunks_nth in E by exact Hb. injection E as <-.
      rewrite <- (Nat.add_0_r (b * (BUCKET + 1))) at 2. rewrite <- nth_skipn. destruct (skipn (b * (BUCKET + 1)) terms); reflexivity.
    - clear. induction terms as [|a terms IH]; [exact I|]. destruct terms; [exact I|]. split; [exact I|exact IH].
    - right. apply num_buckets_le. exact Hn.
  Qed.

  (** The first partial sum that reaches [m]. *)
  Lemma first_over {A} (ls : list (list A)) m : 0 < m <= length (concat ls) ->
    exists i l, nth_error ls i = Some l /\ length (concat (firstn i ls)) < m <= length (concat (firstn (S i) ls)).
  Proof.
    intros [Hm H]. revert m Hm H; induction ls as [|l ls IH]; intros m Hm H; cbn [concat length] in H; [lia|]. rewrite app_length in H.
    destruct (Nat.le_gt_cases m (length l)) as [C|C].
    - exists 0, l. split; [reflexivity|]. cbn [firstn concat length]. rewrite app_nil_r. lia.
    - destruct (IH (m - length l)) as (i & x & E & B); [lia|lia|]. exists (S i), x. split; [exact E|].
      rewrite !firstn_cons. cbn [concat]. rewrite !app_length. lia.
  Qed.

  Lemma firsts_length terms : length (firsts terms) = (length terms + BUCKET) / (BUCKET + 1).
  Proof. unfold firsts. now rewrite map_length, seq_length. Qed.
  Lemma firsts_nth terms b l : nth_error (firsts terms) b = Some l -> terms <> [] -> nth_error terms (b * (BUCKET + 1)) = Some l.
  Proof.
    intros E Hne. assert (Hb : b < fc_num_buckets (length terms)). { unfold fc_num_buckets. rewrite <- firsts_length. apply nth_error_Some. congruence. }
    unfold firsts in E. rewrite nth_error_map in E. rewrite (nth_error_nth' _ 0) in E by (rewrite seq_length; exact Hb).
    rewrite seq_nth in E by exact Hb. cbn [option_map Nat.add] in E. injection E as <-.
    apply nth_error_nth'. assert (Hn : 0 < length terms) by (destruct terms; [congruence|cbn; lia]).
    pose proof (nb_bound (length terms) b Hn Hb). lia.
  Qed.

  Lemma get_map {A B} (f : A -> B) l i x : nth_error l i = Some x -> get (map f l) i = Ok (f x).
  Proof. intros E. unfold get. now rewrite nth_error_map, E. Qed.

  Lemma wide_wrong terms : wf_vocab terms -> (4294967296 <= N.of_nat (length (concat (firsts terms))))%N ->
    exists d i t, fc_build32 terms = Ok d /\ nth_error terms i = Some t /\ forall out base, fc_extract32 d (i + 1) out base = UB.
  Proof.
    intros (Hsort & Hne & Hwf) Hover. destruct (build_headers terms Hne) as (d & Ed & Eph).
    destruct (first_over (firsts terms) (N.to_nat 4294967296)) as (b & l & El & Hlo & Hhi); [lia|].
    unfold fc_build32. rewrite Ed. cbn [bind]. eexists. exists (b * (BUCKET + 1)), l. split; [reflexivity|].
    pose proof (firsts_nth terms b l El Hne) as Et. split; [exact Et|]. intros out base.
    assert (Hb : b < length (firsts terms)) by (apply nth_error_Some; congruence).
    assert (Hl : length l <= 128). { rewrite Forall_forall in Hwf. apply nth_error_In in Et. apply Hwf in Et. destruct Et as [_ Et]. lia. }
    rewrite Nat.add_1_r. unfold fc_extract32. rewrite Nat.div_mul by lia. unfold fc_header32. cbn [fc_ph]. rewrite Eph.
    rewrite (get_map wrap32 _ _ _ (psums_nth (firsts terms) 0 b ltac:(lia))).
    rewrite (get_map wrap32 _ _ _ (psums_nth (firsts terms) 0 (b + 1) ltac:(lia))). cbn [bind].
    rewrite Nat.add_1_r, !Nat.add_0_l. rewrite (concat_firstn_S _ _ _ El) in Hhi |- *.
    set (p := length (concat (firstn b (firsts terms)))) in *. clearbody p.
    rewrite (wrap32_small p) by lia. pose proof (wrap32_over (p + length l) ltac:(lia)) as Hw.
    destruct (Nat.ltb_spec (wrap32 (p + length l)) p) as [C|C]; [reflexivity|]. lia.
  Qed.
End Bucket.

(** ** Small dictionaries *)
Lemma map_wrap32 l : Forall (fun n => (N.of_nat n < 4294967296)%N) l -> map wrap32 l = l.
Proof. induction 1 as [|x l H Hl IH]; [reflexivity|]. cbn [map]. now rewrite IH, wrap32_small. Qed.

Section Bucket2.
  Context {bucket : bucket_size}.
  Lemma psums_up {A} (ls : list (list A)) i a b : nth_error (0 :: psums 0 ls) i = Some a -> nth_error (0 :: psums 0 ls) (i + 1) = Some b -> a <= b.
  Proof.
    intros Ea Eb. assert (Hi : i + 1 < length (0 :: psums 0 ls)) by (apply nth_error_Some; congruence). cbn [length] in Hi. rewrite psums_length in Hi.
    rewrite psums_nth in Ea, Eb by lia. injection Ea as <-. injection Eb as <-.
    destruct (nth_error ls i) as [l|] eqn:E; [|apply nth_error_None in E; lia]. rewrite Nat.add_1_r, (concat_firstn_S _ _ _ E). lia.
  Qed.
  Lemma header32_eq terms d b : terms <> [] -> fc_build terms = Ok d -> fc_header32 d b = fc_header d b.
  Proof.
    intros Hne E. destruct (build_headers terms Hne) as (d' & Ed & Eph). assert (d' = d) by congruence. subst d'.
    unfold fc_header32, fc_header, get. destruct (nth_error (fc_ph d) b) as [x|] eqn:Ex; [|reflexivity]. cbn [bind].
    destruct (nth_error (fc_ph d) (b + 1)) as [y|] eqn:Ey; [|reflexivity]. cbn [bind].
    rewrite Eph in Ex, Ey. pose proof (psums_up _ _ _ _ Ex Ey). destruct (Nat.ltb_spec y x); [lia|reflexivity].
  Qed.
  Lemma extract32_eq terms d id out base : terms <> [] -> fc_build terms = Ok d -> fc_extract32 d id out base = fc_extract d id out base.
  Proof.
    intros Hne E. destruct id as [|i]; [reflexivity|]. cbn [fc_extract32 fc_extract]. unfold fc_extract_at. now rewrite (header32_eq _ _ _ Hne E).
  Qed.
End Bucket2.

Lemma small_build terms : Forall (Forall (fun x => (x < 256)%N)) terms -> (N.of_nat (length (concat terms) + 2 * length terms) < 4294967296)%N ->
  fc_build32 terms = fc_build terms.
Proof.
  intros Hb Hs. unfold fc_build32. destruct (fc_build terms) as [d| | |] eqn:E; try reflexivity. cbn [bind]. f_equal.
  destruct (dict_fit terms d Hb Hs E) as [_ [_ H1] [_ H2] _ _].
  assert (C : forall l, Forall in32 l -> Forall (fun n => (N.of_nat n < 4294967296)%N) l) by (intros l H; eapply Forall_impl; [|exact H]; unfold in32; cbn; intros; lia).
  rewrite !map_wrap32 by (apply C; assumption). now destruct d.
Qed.

Lemma small_extract terms : wf_vocab terms -> not_multiple (length terms) -> Forall (Forall (fun x => (x < 256)%N)) terms ->
  (N.of_nat (length (concat terms) + 2 * length terms) < 4294967296)%N ->
  exists d, fc_build32 terms = Ok d /\
    forall i t, nth_error terms i = Some t ->
    forall out base, base + 256 <= length out ->
    exists out', fc_extract32 d (i + 1) out base = Ok (length t, out') /\
      length out' = length out /\ firstn base out' = firstn base out /\
      firstn (length t) (skipn base out') = t.
Proof.
  intros Hwf Hm Hb Hs. destruct (fc_dictionary_extract terms Hwf Hm) as (d & E & H). exists d. split; [now rewrite small_build|].
  intros i t Ht out base Ho. rewrite (extract32_eq terms d) by (auto; apply Hwf). exact (H i t Ht out base Ho).
Qed.

(** ** A vocabulary with 4 GiB of headers: numbers written with [k] binary digits, a and b *)
Fixpoint digits (k : nat) (i : N) : list N :=
  match k with
  | O => []
  | S k' => (97 + i / 2 ^ N.of_nat k')%N :: digits k' (i mod 2 ^ N.of_nat k')
  end.
Lemma digits_length k i : length (digits k i) = k.
Proof. revert i; induction k; intros; cbn; auto. Qed.
Lemma digits_pos k i : nul_free (digits k i).
Proof.
  revert i; induction k as [|k IH]; intros i; cbn [digits]; [constructor|]. constructor; [|apply IH].
  generalize (i / 2 ^ N.of_nat k)%N. lia.
Qed.
Lemma digits_bytes k i : (i < 2 ^ N.of_nat k)%N -> Forall (fun x => (x < 256)%N) (digits k i).
Proof.
  revert i; induction k as [|k IH]; intros i H; cbn [digits]; [constructor|].
  assert (P : (2 ^ N.of_nat k <> 0)%N) by (apply N.pow_nonzero; lia).
  constructor; [|apply IH, N.mod_lt, P].
  assert ((i / 2 ^ N.of_nat k < 2)%N); [|lia]. apply N.div_lt_upper_bound; [exact P|].
  rewrite Nat2N.inj_succ, N.pow_succ_r' in H. lia.
Qed.
Lemma digits_lt k i j : (i < j)%N -> (j < 2 ^ N.of_nat k)%N -> lex_lt (digits k i) (digits k j).
Proof.
  revert i j; induction k as [|k IH]; intros i j H Hj; [cbn in Hj; lia|]. cbn [digits].
  assert (P : (2 ^ N.of_nat k <> 0)%N) by (apply N.pow_nonzero; lia).
  pose proof (N.div_le_mono i j _ P (N.lt_le_incl _ _ H)) as Hq.
  destruct (N.eq_dec (i / 2 ^ N.of_nat k) (j / 2 ^ N.of_nat k)) as [E|E].
  - rewrite E. apply lex_tail, IH; [|apply N.mod_lt, P].
    pose proof (N.div_mod i _ P) as Di. pose proof (N.div_mod j _ P) as Dj. rewrite E in Di. lia.
  - apply lex_head. lia.
Qed.

Definition many (n : nat) : list (list N) := map (fun i => digits 128 (N.of_nat i)) (seq 0 n).
Lemma many_length n : length (many n) = n.
Proof. unfold many. now rewrite map_length, seq_length. Qed.
Lemma many_wf n : 0 < n -> (N.of_nat n < 2 ^ 128)%N -> wf_vocab (many n).
Proof.
  intros H0 Hn. split; [|split].
  - unfold many. assert (G : forall m a, (N.of_nat (a + m) < 2 ^ 128)%N -> lex_sorted (map (fun i => digits 128 (N.of_nat i)) (seq a m))).
    { clear. induction m as [|m IH]; intros a Ha; [exact I|]. cbn [seq map]. destruct m as [|m]; [split; exact I|]. split.
      - cbn [seq map]. apply digits_lt; [lia|]. change (N.of_nat 128) with 128%N. eapply N.le_lt_trans; [|exact Ha]. lia.
      - apply IH. eapply N.le_lt_trans; [|exact Ha]. lia. }
    apply G. exact Hn.
  - intros E. apply (f_equal (@length _)) in E. rewrite many_length in E. cbn in E. lia.
  - apply Forall_map, Forall_forall. intros i _. split; [apply digits_pos|]. rewrite digits_length. lia.
Qed.
Lemma many_bytes n : (N.of_nat n < 2 ^ 128)%N -> Forall (Forall (fun x => (x < 256)%N)) (many n).
Proof.
  intros Hn. apply Forall_map, Forall_forall. intros i Hi. apply in_seq in Hi. apply digits_bytes. change (N.of_nat 128) with 128%N.
  eapply N.lt_trans; [|exact Hn]. lia.
Qed.
Lemma concat_const {A} (ls : list (list A)) w : Forall (fun l => length l = w) ls -> length (concat ls) = length ls * w.
Proof. induction 1 as [|l ls H Hl IH]; [reflexivity|]. cbn [concat length]. rewrite app_length, IH, H. lia. Qed.
Lemma many_firsts {bucket : bucket_size} n : 0 < n -> length (concat (firsts (many n))) = (n + BUCKET) / (BUCKET + 1) * 128.
Proof.
  intros H0. rewrite (concat_const _ 128); [now rewrite firsts_length, many_length|].
  apply Forall_map, Forall_forall. intros b Hb. apply in_seq in Hb. rewrite many_length in Hb.
  pose proof (nb_bound n b H0 ltac:(unfold fc_num_buckets; lia)) as B.
  unfold many. rewrite (nth_indep _ [] (digits 128 0)) by (rewrite map_length, seq_length; lia).
  change (digits 128 0) with ((fun i => digits 128 (N.of_nat i)) 0). rewrite map_nth. apply digits_length.
Qed.

(** 2^25 buckets and one more string: 570425345 strings. *)
Definition huge : list (list N) := many (N.to_nat 570425345).
Lemma huge_len : N.of_nat (length huge) = 570425345%N.
Proof. unfold huge. rewrite many_length. apply N2Nat.id. Qed.
Lemma huge_wf : wf_vocab huge.
Proof. apply many_wf; [lia|]. rewrite N2Nat.id. reflexivity. Qed.
Lemma huge_bytes : Forall (Forall (fun x => (x < 256)%N)) huge.
Proof. apply many_bytes. rewrite N2Nat.id. reflexivity. Qed.
Lemma huge_not17 : not_multiple (length huge).
Proof.
  unfold not_multiple, BUCKET. rewrite <- (Nat2N.id (length huge)), huge_len. intros E.
  apply (f_equal N.of_nat) in E. revert E. cbn [default_bucket]. rewrite Nat2N.inj_mod, N2Nat.id. vm_compute. discriminate.
Qed.
Lemma huge_over : (4294967296 <= N.of_nat (length (concat (firsts huge))))%N.
Proof.
  unfold huge. rewrite many_firsts by lia. unfold BUCKET. rewrite Nat2N.inj_mul, Nat2N.inj_div, Nat2N.inj_add, N2Nat.id. vm_compute. discriminate.
Qed.
