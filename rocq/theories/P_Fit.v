(** The numbers in bit vectors, darrays, Elias-Fano sequences, compact vectors and range-minimum structures fit their C++ types. *)
From Coq Require Import ZArith Lia Sorted.
From Verif Require Import Base M_Word S_Bits P_Word M_Bits P_Bits P_Rank M_Cvec P_Cvec M_Darray P_Darray M_Trie S_Trie P_Marks M_EfSeq P_EfSeq M_Rs P_Rs M_Bp P_BpBuild M_Cart P_Cart M_Stored P_Save.
Local Open Scope nat_scope.

(** Sizes below 2^50. *)
Definition few (n : nat) : Prop := (N.of_nat n <= 1125899906842624)%N.
Lemma few_le m n : m <= n -> few n -> few m.
Proof. unfold few. lia. Qed.
Lemma in64_few k n : (N.of_nat k <= 8192)%N -> few n -> in64 (k * n).
Proof. unfold few, in64, W64. rewrite Nat2N.inj_mul. nia. Qed.
Lemma few_in64 n : few n -> in64 n.
Proof. unfold few, in64, W64. lia. Qed.

Lemma repr_fit_bv ws l : repr ws l -> (N.of_nat (length l) < 18446744073709551552)%N -> fit_bv {| v_words := ws; v_size := length l |}.
Proof.
  intros [H1 H2 _] Hl. constructor; cbn [v_size v_words]; [unfold in64, W64; lia|]. split; [|assumption].
  pose proof (words_for_bound (length l)). unfold long, W64. lia.
Qed.
Lemma bvb_fit b l : bvb_ok b l -> (N.of_nat (length l) < 18446744073709551552)%N -> fit_bv (bv_build b).
Proof. intros [H1 H2 _] Hl. unfold bv_build. rewrite H2. now apply repr_fit_bv. Qed.

(** ** darray *)
Record da_range (B n : nat) (s : dab) : Prop := {
  dr_n : da_n s <= n;
  dr_cur : Forall (fun p => p < B) (da_cur s);
  dr_over : Forall (fun p => p < B) (da_over s);
  dr_over_len : length (da_over s) + length (da_cur s) <= n;
  dr_blocks : Forall (fun z => (- Z.of_nat n - 1 <= z < Z.of_nat B)%Z) (da_blocks s);
  dr_blocks_len : length (da_blocks s) + length (da_cur s) <= n;
  dr_subs : Forall (fun x => (x < 65536)%N) (da_subs s);
  dr_subs_len : length (da_subs s) + length (da_cur s) <= n
}.
Lemma flush_range B n s s' : da_range B n s -> da_flush s = Ok s' -> da_range B n s' /\ da_cur s' = [].
Proof.
  intros [H1 H2 H3 H4 H5 H6 H7 H8] E. unfold da_flush in E. destruct (da_cur s) as [|front rest] eqn:Ec; [discriminate E|]. rewrite <- Ec in *.
  assert (Hlen : 0 < length (da_cur s)) by (rewrite Ec; cbn; lia).
  assert (Hf : front < B) by (rewrite Ec in H2; now inversion H2).
  assert (Hsub : length (sub_starts (length (da_cur s))) <= length (da_cur s)).
  { rewrite sub_starts_length. apply Nat.div_le_upper_bound; lia. }
  destruct (_ <? 65536)%N; injection E as <-; (split; [|reflexivity]); constructor; cbn [da_n da_cur da_over da_blocks da_subs length];
    rewrite ?app_length, ?map_length; cbn [length]; try lia; try assumption; try constructor; try (apply Forall_app; split; [assumption|]); try assumption.
  - constructor; [lia|constructor].
  - apply Forall_map, Forall_forall. intros i _. apply N.mod_upper_bound. discriminate.
  - constructor; [lia|constructor].
  - apply Forall_map, Forall_forall. intros i _. reflexivity.
Qed.
Lemma push_range B n s p s' : da_range B n s -> p < B -> da_push s p = Ok s' -> da_range B (n + 1) s'.
Proof.
  intros [H1 H2 H3 H4 H5 H6 H7 H8] Hp E. unfold da_push in E.
  set (s0 := {| da_n := da_n s; da_cur := da_cur s ++ [p]; da_blocks := da_blocks s; da_subs := da_subs s; da_over := da_over s |}) in E.
  assert (R : da_range B (n + 1) s0).
  { constructor; cbn [s0 da_n da_cur da_over da_blocks da_subs]; rewrite ?app_length; cbn [length]; try lia; try assumption.
    - apply Forall_app. split; [assumption|repeat constructor; assumption].
    - eapply Forall_impl; [|exact H5]. cbn. lia. }
  assert (En : da_n s0 + 1 <= n + 1) by (cbn; lia).
  destruct (length (da_cur s0) =? 1024).
  - destruct (da_flush s0) as [s1| | |] eqn:Ef; try discriminate E. cbn [bind] in E. injection E as <-.
    destruct (flush_range _ _ _ _ R Ef) as [[A1 A2 A3 A4 A5 A6 A7 A8] Ec].
    constructor; cbn [da_n da_cur da_over da_blocks da_subs]; try assumption.
    assert (da_n s1 = da_n s0); [|lia]. unfold da_flush in Ef. destruct (da_cur s0); [discriminate|]. destruct (_ <? 65536)%N; now injection Ef as <-.
  - cbn [bind] in E. injection E as <-. destruct R as [A1 A2 A3 A4 A5 A6 A7 A8]. constructor; cbn [da_n da_cur da_over da_blocks da_subs]; assumption.
Qed.
Lemma pushes_range B ps : forall n s s', da_range B n s -> Forall (fun p => p < B) ps -> pushes s ps = Ok s' -> da_range B (n + length ps) s'.
Proof.
  induction ps as [|p ps IH]; intros n s s' R Hp E; cbn [pushes] in E.
  - injection E as <-. cbn [length]. now rewrite Nat.add_0_r.
  - inversion Hp; subst. destruct (da_push s p) as [s1| | |] eqn:E1; try discriminate E. cbn [bind] in E.
    cbn [length]. replace (n + S (length ps)) with (n + 1 + length ps) by lia. eapply IH; [|eassumption|eassumption]. eapply push_range; eassumption.
Qed.
Lemma cnt_le_size f n : P_Rank.cnt f n <= n.
Proof. induction n as [|n IH]; [cbn; lia|]. rewrite cnt_S. destruct (f n); lia. Qed.
Lemma da_fit neg v d : words (v_words v) -> (N.of_nat (64 * length (v_words v)) < 9223372036854775807)%N -> da_build neg v = Ok d -> fit_darray d.
Proof.
  intros Hw HB E. set (B := 64 * length (v_words v)) in *. unfold da_build in E. rewrite da_words_ok with (ws := v_words v) in E by auto. rewrite Nat.mul_0_r in E.
  set (P := filter (upto neg (v_words v) (v_size v)) (seq 0 (64 * length (v_words v)))) in *.
  assert (HP : Forall (fun p => p < B) P).
  { apply Forall_forall. intros p Hp. apply filter_In in Hp as [Hp _]. apply in_seq in Hp. unfold B. lia. }
  assert (HPl : length P <= B) by (unfold P; fold B; change (filter ?f (seq 0 B)) with (poss f B); rewrite poss_length; apply cnt_le_size).
  destruct (pushes dab_empty P) as [s| | |] eqn:Es; try discriminate E. cbn [bind] in E.
  assert (R : da_range B (length P) s).
  { eapply (pushes_range B P 0); [|exact HP|exact Es]. constructor; cbn; try constructor; lia. }
  assert (R' : exists s', da_range B (length P) s' /\ d = {| d_n := da_n s'; d_blocks := da_blocks s'; d_subs := da_subs s'; d_over := da_over s' |}).
  { destruct (da_cur s) as [|x xs].
    - cbn [bind] in E. injection E as <-. exists s. split; [assumption|reflexivity].
    - destruct (da_flush s) as [s'| | |] eqn:Ef; try discriminate E. cbn [bind] in E. injection E as <-.
      exists s'. split; [|reflexivity]. eapply flush_range; eassumption. }
  destruct R' as (s' & [A1 A2 A3 A4 A5 A6 A7 A8] & ->). clear -HB HPl A1 A2 A3 A4 A5 A6 A7 A8. clearbody B P. constructor; cbn [d_n d_blocks d_subs d_over].
  - unfold in64, W64. lia.
  - split; [unfold long, W64; lia|]. eapply Forall_impl; [|exact A5]. unfold fits_signed. cbv beta. intros z Hz. lia.
  - split; [unfold long, W64; lia|assumption].
  - split; [unfold long, W64; lia|]. eapply Forall_impl; [|exact A3]. unfold in64, W64. cbv beta. intros z Hz. lia.
Qed.

(** ** Elias-Fano sequences *)
Lemma ef_width_small n u l : (u < W64)%N -> 0 < n -> ef_width n u = Ok l -> l < 64 /\ hpart l u <= 2 * n.
Proof.
  intros Hu Hn E. unfold ef_width in E. destruct (Nat.eqb_spec n 0); [lia|].
  pose proof (N.mul_succ_div_gt u (N.of_nat n) ltac:(lia)) as Hlt.
  assert (Hq : (u / N.of_nat n <= u)%N) by (apply N.div_le_upper_bound; [lia|nia]).
  remember (u / N.of_nat n)%N as q eqn:Eq. clear Eq.
  destruct (N.eqb_spec q 0) as [E0|Hq0].
  - rewrite E0 in Hlt. injection E as <-. split; [lia|]. unfold hpart. rewrite N.shiftr_0_r. lia.
  - rewrite msb_log in E by lia. injection E as <-.
    assert (N.log2 q < 64)%N by (apply N.log2_lt_pow2; [lia|]; rewrite <- W64_pow; lia). split; [lia|].
    unfold hpart. rewrite N2Nat.id, N.shiftr_div_pow2.
    assert (Hp : (u / 2 ^ N.log2 q < 2 * N.of_nat n)%N); [|lia].
    apply N.div_lt_upper_bound; [apply N.pow_nonzero; discriminate|]. pose proof (N.log2_spec q ltac:(lia)) as [_ Hs]. rewrite N.pow_succ_r' in Hs. nia.
Qed.
Lemma packed_length l vs : length (packed l vs) = length vs * l.
Proof. induction vs as [|v vs IH]; [reflexivity|]. change (packed l (v :: vs)) with (packed l ([v] ++ vs)). rewrite packed_app, app_length, IH, packed_one, bits_of_length. cbn [length]. lia. Qed.
Lemma ef_fit vs e : monotone vs -> Forall (fun v => (v < W64)%N) vs -> few (length vs) -> ef_build vs = Ok e -> fit_efs e.
Proof.
  intros [Hne Hs] Hw Hfew Eb. apply sorted_nondec in Hs. unfold ef_build in Eb. destruct vs as [|v0 vs'] eqn:Ev; [congruence|]. rewrite <- Ev in *.
  assert (Hn : 0 < length vs) by (rewrite Ev; cbn; lia). rewrite (last_nth vs 0%N) in Eb by assumption. set (u := nth (length vs - 1) vs 0%N) in *.
  assert (Hu : (u < W64)%N) by (apply (proj1 (Forall_forall _ _) Hw), nth_In; lia).
  unfold ef_compress in Eb. destruct (ef_width (length vs) u) as [l| | |] eqn:El; try discriminate Eb.
  destruct (ef_width_small _ _ _ Hu Hn El) as [Hl Hh]. cbn [bind] in Eb. rewrite shr_ok in Eb by assumption. cbn [bind] in Eb.
  fold (hpart l u) in Eb. set (M := length vs + hpart l u + 1) in *. destruct (new_ok M false) as (high & Enew & Hhigh). rewrite Enew in Eb. cbn [bind] in Eb.
  rewrite shl_ok in Eb by assumption. cbn [bind] in Eb. rewrite mask_ones in Eb by assumption.
  assert (HM : forall i, i < length vs -> hpos l vs i < M).
  { intros i Hi. unfold hpos, M. pose proof (hpart_mono l _ _ (Hs i (length vs - 1) ltac:(lia) ltac:(lia))). fold u in H. lia. }
  destruct (ef_fill_ok l M Hl vs [] bvb_empty high (repeat false M)) as (low' & high' & H' & E & H1 & H2 & H3 & H4); auto.
  - apply empty_ok.
  - apply repeat_length.
  - split; [cbn; lia|]. intros p. split; [|cbn; intros (i & Hi & _); lia]. rewrite nth_repeat_if. now destruct (_ <? _).
  - cbn [length List.last app] in E. rewrite E in Eb. cbn [bind app] in *.
    destruct (da_build false (bv_build high')) as [d| | |] eqn:Ed; try discriminate Eb. cbn [bind] in Eb. injection Eb as <-.
    unfold few in Hfew. assert (HMs : (N.of_nat M <= 4503599627370496)%N) by (unfold M; lia).
    constructor; cbn [ef_l ef_high ef_d1 ef_low ef_size].
    + lia.
    + eapply bvb_fit; [exact H2|]. lia.
    + eapply da_fit; [|  |exact Ed]; cbn [bv_build v_words]; [apply H2|].
      rewrite (repr_len _ _ (bo_repr _ _ H2)), H3. pose proof (words_for_bound M). lia.
    + eapply bvb_fit; [exact H1|]. rewrite packed_length, Nat2N.inj_mul. nia.
    + unfold in64, W64. lia.
Qed.

(** ** compact_vector *)
Lemma cvec_fit l w v : 1 <= w < 64 -> Forall (fun x => (x < W64)%N) l -> few (length l) -> cv_build_width l w = Ok v -> fit_cvec v.
Proof.
  intros Hw Hl Hf E. destruct (cv_build_width_ok l w Hw Hl) as (v' & E' & [H1 H2 H3 H4 H5 _]). rewrite E in E'. injection E' as <-. unfold few in Hf.
  constructor; rewrite ?H1, ?H2, ?H3.
  - unfold in64, W64. lia.
  - unfold in64, W64. lia.
  - rewrite N.ones_equiv, W64_pow. pose proof (N.pow_lt_mono_r 2 (N.of_nat w) 64 ltac:(lia) ltac:(lia)). lia.
  - split; [|assumption]. unfold long. rewrite H5. pose proof (words_for_bound (length l * w)) as [_ B].
    assert (length l * w <= length l * 64) by (apply Nat.mul_le_mono_l; lia). unfold W64. lia.
Qed.

(** ** rs_bit_vector *)
Lemma popcount_64 w : (w < W64)%N -> popcount w <= 64.
Proof. intros H. rewrite popcount_cnt by assumption. apply cnt_le_size. Qed.
Record rsb_range (i : nat) (s : rsb) : Prop := {
  rr_pairs : words (g_pairs s);
  rr_len : length (g_pairs s) <= 1 + 2 * i;
  rr_next : (g_next s <= N.of_nat (64 * i))%N;
  rr_cur : (g_cur s <= g_next s)%N;
  rr_sub : (g_sub s < W64)%N
}.
Lemma push_field_lt s x : (x < W64)%N -> (push_field s x < W64)%N.
Proof. intros H. apply lor_lt; [apply wrap_lt|assumption]. Qed.
Lemma rsb_word_range i w s : (w < W64)%N -> (N.of_nat i < 288230376151711743)%N -> rsb_range i s -> rsb_range (i + 1) (rsb_word i w s).
Proof.
  intros Hw Hi [H1 H2 H3 H4 H5]. pose proof (popcount_64 w Hw) as Hp.
  assert (Hs : ((if (i mod 8 =? 0)%nat then g_sub s else push_field (g_sub s) (g_cur s)) < W64)%N).
  { destruct (i mod 8 =? 0); [assumption|]. apply push_field_lt. unfold W64. lia. }
  assert (Hn : (g_next s + N.of_nat (popcount w) <= N.of_nat (64 * (i + 1)))%N) by lia.
  unfold rsb_word. destruct (i mod 8 =? 7); constructor; cbn [g_pairs g_next g_cur g_sub]; rewrite ?app_length; cbn [length]; try lia; try assumption.
  - apply Forall_app. split; [assumption|]. constructor; [exact Hs|]. constructor; [unfold W64; lia|constructor].
Qed.
Lemma rsb_words_range ws : words ws -> forall i s, (N.of_nat (i + length ws) < 288230376151711743)%N -> rsb_range i s -> rsb_range (i + length ws) (rsb_words i ws s).
Proof.
  induction 1 as [|w ws Hw Hws IH]; intros i s Hi R; cbn [rsb_words length].
  - now rewrite Nat.add_0_r.
  - cbn [length] in Hi. replace (i + S (length ws)) with (i + 1 + length ws) by lia. apply IH; [lia|]. apply rsb_word_range; [assumption|lia|assumption].
Qed.
Lemma pad_fields_lt n : forall s x, (x < W64)%N -> (s < W64)%N -> (pad_fields n s x < W64)%N.
Proof. induction n as [|n IH]; intros s x Hx Hs; cbn [pad_fields]; [assumption|]. apply IH; [assumption|]. now apply push_field_lt. Qed.
Lemma pairs_fit ws : words ws -> few (length ws) -> words (rs_build_pairs ws) /\ length (rs_build_pairs ws) <= 4 + 2 * length ws.
Proof.
  intros Hw Hf. unfold few in Hf. unfold rs_build_pairs.
  pose proof (rsb_words_range ws Hw 0 {| g_pairs := [0%N]; g_next := 0; g_cur := 0; g_sub := 0 |} ltac:(lia)) as R. cbn [Nat.add] in R.
  destruct R as [H1 H2 H3 H4 H5]; [constructor; cbn; [repeat constructor|lia|lia|lia|reflexivity]|].
  set (s := rsb_words _ _ _) in *.
  assert (Hn : (g_next s < W64)%N) by (unfold W64; lia). split.
  - apply Forall_app. split; [assumption|]. cbn [app]. constructor; [apply pad_fields_lt; [lia|assumption]|].
    destruct (_ =? 0); repeat constructor; assumption.
  - rewrite !app_length. cbn [length]. destruct (_ =? 0); cbn [length]; lia.
Qed.
Lemma hints_range neg r n : forall i t acc h, rs_hints_go neg r n i t acc = Ok h -> Forall (fun x => x <= i + n + rs_num_blocks r) acc ->
  Forall (fun x => x <= i + n + rs_num_blocks r) h /\ length h <= length acc + n + 1.
Proof.
  induction n as [|n IH]; intros i t acc h E Hacc; cbn [rs_hints_go] in E.
  - injection E as <-. split; [apply Forall_app; split; [assumption|constructor; [lia|constructor]]|]. rewrite app_length. cbn. lia.
  - destruct (block_rank_of neg r (i + 1)) as [x| | |]; try discriminate E. cbn [bind] in E.
    replace (i + S n) with (i + 1 + n) in * by lia. destruct (t <? x)%N.
    + apply IH in E; [|apply Forall_app; split; [assumption|constructor; [lia|constructor]]]. rewrite app_length in E. cbn [length] in E. split; [apply E|]. lia.
    + apply IH in E; [|assumption]. split; [apply E|]. lia.
Qed.
Lemma rs_fit v a b r : fit_bv v -> few (length (v_words v)) -> rs_build v a b = Ok r -> fit_rsv r /\ rs_bv r = v.
Proof.
  intros Hv Hf E. unfold rs_build in E. cbn [rs_pairs] in E. set (r0 := {| rs_bv := v; rs_pairs := _; rs_hints := []; rs_hints0 := [] |}) in E.
  destruct (pairs_fit (v_words v) (proj2 (fb_words v Hv)) Hf) as [Hp Hl].
  assert (Hnb : rs_num_blocks r0 <= 2 + length (v_words v)).
  { unfold rs_num_blocks. cbn [r0 rs_pairs]. pose proof (Nat.div_le_upper_bound (length (rs_build_pairs (v_words v))) 2 (2 + length (v_words v)) ltac:(lia)). lia. }
  unfold few in Hf.
  assert (Hh : forall (x : bool) neg h, (if x then rs_hints_go neg r0 (rs_num_blocks r0) 0 1024 [] else Ok []) = Ok h -> fit_nats h).
  { intros [|] neg h Eh; [|injection Eh as <-; split; [reflexivity|constructor]]. apply hints_range in Eh; [|constructor]. destruct Eh as [Eh1 Eh2]. cbn [length] in Eh2. split; [unfold long, W64; lia|].
    eapply Forall_impl; [|exact Eh1]. unfold in64, W64. cbv beta. intros y Hy. lia. }
  destruct (if a then _ else _) as [h| | |] eqn:E1; try discriminate E. cbn [bind] in E. apply Hh in E1.
  destruct (if b then _ else _) as [h0| | |] eqn:E2; try discriminate E. cbn [bind] in E. apply Hh in E2. injection E as <-.
  split; [|reflexivity]. constructor; cbn [rs_bv rs_pairs rs_hints rs_hints0]; try assumption. split; [|exact Hp]. unfold long, W64. lia.
Qed.

(** ** bp_vector *)
Lemma to_i16_range z : fits_signed 32768 (to_i16 z).
Proof. unfold to_i16, fits_signed. pose proof (Z.mod_pos_bound (z + 32768) 65536 ltac:(lia)). lia. Qed.
Lemma to_i32_range z : fits_signed 2147483648 (to_i32 z).
Proof. unfold to_i32, fits_signed. pose proof (Z.mod_pos_bound (z + 2147483648) 4294967296 ltac:(lia)). lia. Qed.
Lemma min_words_range size total : forall ws i sexc cmin mins, Forall (fits_signed 32768) mins ->
  Forall (fits_signed 32768) (min_words size total i ws sexc cmin mins) /\ length (min_words size total i ws sexc cmin mins) <= length mins + length ws + 1.
Proof.
  induction ws as [|w ws IH]; intros i sexc cmin mins Hm; cbn [min_words].
  - split; [apply Forall_app; split; [assumption|constructor; [apply to_i16_range|constructor]]|]. rewrite app_length. cbn. lia.
  - destruct ((i mod 4 =? 0) && negb (i =? 0)); destruct (min_bits _ _ _ _ _) as [e' c'].
    + destruct (IH (i + 1) e' c' (mins ++ [to_i16 cmin])) as [A B].
      * apply Forall_app. split; [assumption|]. constructor; [apply to_i16_range|constructor].
      * split; [assumption|]. rewrite app_length in B. cbn [length] in *. lia.
    + destruct (IH (i + 1) e' c' mins Hm) as [A B]. split; [assumption|]. cbn [length]. lia.
Qed.
Lemma super_min_range mins e : forall n b acc v, fits_signed 2147483648 acc -> super_min mins e n b acc = Ok v -> fits_signed 2147483648 v.
Proof.
  induction n as [|n IH]; intros b acc v Ha E; cbn [super_min] in E; [now injection E as <-|].
  destruct (get mins b) as [m| | |]; try discriminate E. cbn [bind] in E. destruct (i32 (e + m)) as [x| | |] eqn:Ei; try discriminate E. cbn [bind] in E.
  eapply IH; [|exact E]. unfold i32 in Ei. destruct (_ && _)%bool eqn:Eb; [|discriminate Ei]. injection Ei as <-. unfold fits_signed in *. lia.
Qed.
Lemma super_mins_range r mins blocks : forall n s vs, super_mins r mins blocks n s = Ok vs -> Forall (fits_signed 2147483648) vs /\ length vs = n.
Proof.
  induction n as [|n IH]; intros s vs E; cbn [super_mins] in E; [injection E as <-; split; [constructor|reflexivity]|].
  destruct (block_excess r (s * 32)) as [e| | |]; try discriminate E. cbn [bind] in E.
  destruct (super_min _ _ _ _ _) as [v| | |] eqn:Ev; try discriminate E. cbn [bind] in E.
  destruct (super_mins r mins blocks n (s + 1)) as [vs'| | |] eqn:Es; try discriminate E. cbn [bind] in E. injection E as <-.
  apply IH in Es as [A B]. apply super_min_range in Ev; [|apply to_i32_range]. split; [now constructor|]. cbn. lia.
Qed.
Lemma fill_up_range : forall n t t', fill_up n t = Ok t' -> Forall (fits_signed 2147483648) t -> Forall (fits_signed 2147483648) t' /\ length t' = length t.
Proof.
  induction n as [|n IH]; intros t t' E Ht; cbn [fill_up] in E; [injection E as <-; auto|].
  destruct (get t ((S n + 1) / 2)) as [x| | |] eqn:Ex; try discriminate E. cbn [bind] in E.
  destruct (get t (S n + 1)) as [y| | |] eqn:Ey; try discriminate E. cbn [bind] in E.
  destruct (set t ((S n + 1) / 2) (Z.min x y)) as [t1| | |] eqn:Et; try discriminate E. cbn [bind] in E.
  assert (Hxy : fits_signed 2147483648 x /\ fits_signed 2147483648 y).
  { rewrite Forall_forall in Ht. unfold get in Ex, Ey. destruct (nth_error t ((S n + 1) / 2)) eqn:N1; [|discriminate]. destruct (nth_error t (S n + 1)) eqn:N2; [|discriminate].
    injection Ex as <-. injection Ey as <-. apply nth_error_In in N1, N2. auto. }
  assert (Ht1 : Forall (fits_signed 2147483648) t1 /\ length t1 = length t).
  { unfold set in Et. destruct (_ <? _); [|discriminate]. injection Et as <-. split; [|now rewrite upd_length].
    apply Forall_forall. intros z Hz. apply In_nth_error in Hz as [i Hi]. rewrite upd_nth_error in Hi. rewrite Forall_forall in Ht.
    destruct (_ && _); [injection Hi as <-; unfold fits_signed in *; lia|]. apply Ht. eapply nth_error_In. exact Hi. }
  destruct Ht1 as [A B]. destruct (IH t1 t' E A) as [C D]. split; [assumption|lia].
Qed.
Lemma leaves_range n : forall fuel c x, loop fuel (leaves_step n) c = Ok x -> c <= 2 * n + 1 -> x <= 2 * n + 1.
Proof.
  induction fuel as [|fuel IH]; intros c x E Hc; [discriminate E|]. cbn [loop] in E. unfold leaves_step at 1 in E. destruct (Nat.ltb_spec c n); cbn [bind] in E.
  - eapply IH; [exact E|]. lia.
  - injection E as <-. assumption.
Qed.
Lemma bp_fit v a b p : fit_bv v -> few (length (v_words v)) -> bp_build v a b = Ok p -> fit_bpv p.
Proof.
  intros Hv Hf E. unfold bp_build in E. destruct (rs_build v a b) as [r| | |] eqn:Er; try discriminate E. cbn [bind] in E.
  destruct (rs_fit v a b r Hv Hf Er) as [Hr _]. destruct (v_size v =? 0).
  - injection E as <-. constructor; cbn; [assumption|reflexivity|split; [reflexivity|constructor]..].
  - destruct (min_words_range (v_size v) (length (v_words v)) (v_words v) 0 0%Z 0%Z []) as [Hm1 Hm2]; [constructor|].
    set (mins := min_words _ _ _ _ _ _ _) in *. set (blocks := ceil_div _ _) in *. set (supers := (blocks + 32 - 1) / 32) in *.
    assert (Hb : blocks <= length (v_words v) + 1).
    { unfold blocks, ceil_div. apply Nat.div_le_upper_bound; lia. }
    assert (Hs : supers <= length (v_words v) + 1) by (unfold supers; apply Nat.div_le_upper_bound; lia).
    destruct (loop (supers + 1) (leaves_step supers) 1) as [internal| | |] eqn:El; try discriminate E. cbn [bind] in E.
    apply leaves_range in El; [|lia].
    destruct (super_mins r mins blocks supers 0) as [vs| | |] eqn:Es; try discriminate E. cbn [bind] in E. apply super_mins_range in Es as [Hs1 Hs2].
    destruct (fill_up _ _) as [tree| | |] eqn:Et; try discriminate E. cbn [bind] in E. injection E as <-.
    apply fill_up_range in Et as [Ht1 Ht2].
    + rewrite app_length, repeat_length in Ht2. unfold few in Hf. cbn [length] in Hm2. constructor; cbn [bp_rs bp_internal bp_block_min bp_tree]; [assumption|unfold in64, W64; lia|..]; (split; [unfold long, W64; lia|assumption]).
    + apply Forall_app. split; [|assumption]. apply Forall_forall. intros z Hz. apply repeat_spec in Hz as ->. apply to_i32_range.
Qed.
Lemma ct_fit l p : (N.of_nat (length l) < 1073741823)%N -> ct_build l = Ok p -> fit_bpv p.
Proof.
  intros Hl E. unfold ct_build in E. destruct (ct_bits_ok l) as (st & b & E1 & E2 & Hb). rewrite E1 in E. cbn [bind] in E. rewrite E2 in E. cbn [bind] in E.
  assert (HR : length (R l) = 2 * length l + 2) by apply R_size.
  eapply bp_fit; [| |exact E].
  - change {| v_words := b_words b; v_size := b_size b |} with (bv_build b). eapply bvb_fit; [exact Hb|]. lia.
  - cbn [v_words]. unfold few. rewrite (repr_len _ _ (bo_repr _ _ Hb)), HR. pose proof (words_for_bound (2 * length l + 2)). lia.
Qed.
Lemma ulist_fit l d : (N.of_nat (length l) < 1073741823)%N -> Forall (fun x => (N.of_nat x < 4294967295)%N) l -> ulist_build_d l = Ok d -> fit_ulist d.
Proof.
  intros Hl Hx E. unfold ulist_build_d in E. destruct (ct_build l) as [p| | |] eqn:Ep; try discriminate E. cbn [bind] in E.
  destruct (cvec_build_d (map N.of_nat l)) as [v| | |] eqn:Ev; try discriminate E. cbn [bind] in E. injection E as <-.
  constructor; cbn [ud_rmq ud_list]; [now apply (ct_fit l)|]. unfold cvec_build_d in Ev. destruct (map N.of_nat l) as [|x m] eqn:Em; [discriminate|]. rewrite <- Em in *. clear x m Em.
  set (w := M_Containers.ceil_log2 _) in *.
  assert (Hw : 1 <= w < 64).
  { split.
    - destruct w eqn:E0; [|lia]. exfalso. revert Ev. unfold cv_build_width, cvb_new. destruct (mask_of 0); discriminate.
    - assert (Hm : (fold_right N.max 0 (map N.of_nat l) < 4294967295)%N).
      { clear -Hx. induction Hx as [|x l H Hx IH]; cbn; [reflexivity|]. lia. }
      unfold w, M_Containers.ceil_log2. destruct (N.ltb_spec 1 (fold_right N.max 0%N (map N.of_nat l) + 1)); [|lia].
      rewrite N.add_sub. assert (N.log2 (fold_right N.max 0 (map N.of_nat l)) < 32)%N; [|lia]. apply N.log2_lt_pow2; [lia|]. change (2 ^ 32)%N with 4294967296%N. lia. }
  apply (cvec_fit _ w _ Hw) in Ev; [assumption| |].
  - apply Forall_map. eapply Forall_impl; [|exact Hx]. unfold W64. cbn. lia.
  - unfold few. rewrite map_length. lia.
Qed.
