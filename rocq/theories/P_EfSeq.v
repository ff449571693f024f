(** ef_sequence stores non-decreasing sequences. *)
From Coq Require Import Sorted.
From Verif Require Import Base S_Search M_Find M_Trie S_Trie M_Word S_Bits P_Word M_Bits P_Bits P_Rank P_BitsRead P_BitsIter P_Marks M_Darray P_Darray M_EfSeq.
Local Open Scope nat_scope.

Definition hpart (l : nat) (v : N) : nat := N.to_nat (N.shiftr v (N.of_nat l)).
Definition hpos (l : nat) (vs : list N) (i : nat) : nat := hpart l (nth i vs 0%N) + i.
Lemma hpart_mono l v w : (v <= w)%N -> hpart l v <= hpart l w.
Proof. intros H. unfold hpart. rewrite !N.shiftr_div_pow2. assert (v / 2 ^ N.of_nat l <= w / 2 ^ N.of_nat l)%N by (apply N.div_le_mono; [apply N.pow_nonzero; discriminate|assumption]). lia. Qed.

Definition nondec (vs : list N) : Prop := forall i j, i <= j -> j < length vs -> (nth i vs 0 <= nth j vs 0)%N.
Lemma sorted_nondec vs : StronglySorted N.le vs -> nondec vs.
Proof.
  induction 1 as [|v vs Hs IH Hf]; intros i j Hij Hj; cbn [length] in Hj; [lia|].
  destruct i as [|i], j as [|j]; cbn [nth]; try lia.
  - apply (proj1 (Forall_forall _ _) Hf), nth_In. lia.
  - apply IH; lia.
Qed.
Lemma nondec_app vs us : nondec (vs ++ us) -> nondec vs.
Proof. intros H i j Hij Hj. specialize (H i j Hij). rewrite app_length, !app_nth1 in H by lia. apply H. lia. Qed.
Lemma hpos_inc l vs i j : nondec vs -> i < j -> j < length vs -> hpos l vs i < hpos l vs j.
Proof. intros H Hij Hj. unfold hpos. pose proof (hpart_mono l _ _ (H i j ltac:(lia) Hj)). lia. Qed.
Lemma marks_ext f h h' n : marks f h n -> (forall i, i < n -> h i = h' i) -> marks f h' n.
Proof.
  intros [Hi Hf] H. split.
  - intros i j Hij Hj. rewrite <- !H by lia. now apply Hi.
  - intros p. rewrite Hf. split; intros (i & Hin & E); exists i; (split; [assumption|]); [rewrite <- H|rewrite H]; auto.
Qed.

(** ** Building *)
Lemma low_part v l : l < 64 -> (v < W64)%N -> N.land v (N.ones (N.of_nat l)) = (v mod 2 ^ N.of_nat l)%N.
Proof. intros _ _. apply N.land_ones. Qed.
Lemma bits_of_mod l v : bits_of l (v mod 2 ^ N.of_nat l) = bits_of l v.
Proof. apply bits_of_ext. intros i Hi. rewrite tb_mod_pow. destruct (Nat.ltb_spec i l); [reflexivity|lia]. Qed.

Lemma ef_fill_ok l M : l < 64 -> forall vs done low high H,
  nondec (done ++ vs) -> Forall (fun v => (v < W64)%N) vs ->
  (forall i, i < length (done ++ vs) -> hpos l (done ++ vs) i < M) ->
  bvb_ok low (packed l done) -> bvb_ok high H -> length H = M -> marks (fun j => nth j H false) (hpos l done) (length done) ->
  exists low' high' H', ef_fill l (N.ones (N.of_nat l)) vs (length done) (List.last done 0%N) low high = Ok (low', high') /\
    bvb_ok low' (packed l (done ++ vs)) /\ bvb_ok high' H' /\ length H' = M /\ marks (fun j => nth j H' false) (hpos l (done ++ vs)) (length (done ++ vs)).
Proof.
  intros Hl. induction vs as [|v vs IH]; intros done low high H Hnd Hw HM Hlow Hhigh HH Hmk; cbn [ef_fill].
  - rewrite app_nil_r in *. eauto 10.
  - assert (Hlast : (0 <? length done) && (v <? List.last done 0)%N = false).
    { destruct done as [|d done'] eqn:E; [reflexivity|]. rewrite <- E in *. assert (Hd : 0 < length done) by (rewrite E; cbn; lia).
      rewrite (last_nth done 0%N) by congruence. specialize (Hnd (length done - 1) (length done) ltac:(lia)).
      rewrite app_length in Hnd. cbn [length] in Hnd. specialize (Hnd ltac:(lia)). rewrite app_nth1, app_nth2, Nat.sub_diag in Hnd by lia. cbn [nth] in Hnd.
      apply andb_false_iff. right. apply N.ltb_ge. assumption. }
    rewrite Hlast. inversion Hw as [|? ? Hv Hw']; subst.
    assert (Elow : exists low', (if l =? 0 then Ok low else bvb_append_bits low (N.land v (N.ones (N.of_nat l))) l) = Ok low' /\ bvb_ok low' (packed l (done ++ [v]))).
    { rewrite packed_app, packed_one. destruct (Nat.eqb_spec l 0) as [->|Hl0].
      - exists low. split; [reflexivity|]. cbn [bits_of]. now rewrite app_nil_r.
      - rewrite low_part by assumption. destruct (append_bits_ok low _ (v mod 2 ^ N.of_nat l)%N l Hlow) as (low' & E & Hlow'); [lia|apply N.mod_upper_bound, N.pow_nonzero; discriminate|].
        exists low'. split; [assumption|]. now rewrite bits_of_mod in Hlow'. }
    destruct Elow as (low' & -> & Hlow'). cbn [bind]. rewrite shr_ok by assumption. cbn [bind]. fold (hpart l v).
    assert (Epos : hpart l v + length done = hpos l (done ++ v :: vs) (length done)) by (unfold hpos; rewrite app_nth2, Nat.sub_diag by lia; reflexivity).
    assert (Hlen : length done < length (done ++ v :: vs)) by (rewrite app_length; cbn; lia).
    assert (Hlt : hpart l v + length done < length H) by (rewrite Epos; now apply HM).
    destruct (set_ok_bit high H (hpart l v + length done) true Hhigh Hlt) as (high' & -> & Hhigh'). cbn [bind].
    replace (done ++ v :: vs) with ((done ++ [v]) ++ vs) in * by now rewrite <- app_assoc.
    replace (length done + 1) with (length (done ++ [v])) by now rewrite app_length.
    specialize (IH (done ++ [v]) low' high' (upd H (hpart l v + length done) true)). rewrite last_last in IH.
    apply IH; auto; [now rewrite upd_length|].
    rewrite app_length. cbn [length]. apply marks_set; auto.
    + apply marks_ext with (hpos l done); [assumption|]. intros i Hi. unfold hpos. now rewrite app_nth1 by assumption.
    + intros i Hi. assert (E : forall k, k < length (done ++ [v]) -> hpos l (done ++ [v]) k = hpos l ((done ++ [v]) ++ vs) k) by (intros k Hk; unfold hpos; now rewrite (app_nth1 (done ++ [v])) by assumption).
      rewrite E, Epos by (rewrite app_length; cbn; lia). apply hpos_inc; auto.
    + unfold hpos. now rewrite app_nth2, Nat.sub_diag by lia.
Qed.

Record ef_ok (e : efs) (vs : list N) : Prop := {
  eo_l : ef_l e < 64;
  eo_size : ef_size e = length vs;
  eo_w : Forall (fun v => (v < W64)%N) vs;
  eo_low : repr (v_words (ef_low e)) (packed (ef_l e) vs);
  eo_words : words (v_words (ef_high e));
  eo_fit : v_size (ef_high e) <= 64 * length (v_words (ef_high e));
  eo_mark : marks (bitat (v_words (ef_high e))) (hpos (ef_l e) vs) (length vs);
  eo_in : forall i, i < length vs -> hpos (ef_l e) vs i < v_size (ef_high e);
  eo_d1 : da_ok false (ef_high e) (ef_d1 e)
}.

Lemma ef_width_ok n u : (u < W64)%N -> exists l, ef_width n u = Ok l /\ l < 64.
Proof.
  intros Hu. unfold ef_width. destruct (Nat.eqb_spec n 0); [exists 0; split; [reflexivity|lia]|].
  destruct (N.eqb_spec (u / N.of_nat n) 0); [exists 0; split; [reflexivity|lia]|].
  assert (Hq : (u / N.of_nat n <= u)%N) by (apply N.div_le_upper_bound; [lia|nia]).
  remember (u / N.of_nat n)%N as q eqn:Eq. clear Eq. rewrite msb_log by lia. eexists; split; [reflexivity|].
  assert (N.log2 q < 64)%N; [|lia]. apply N.log2_lt_pow2; [lia|]. rewrite W64_pow in Hu. lia.
Qed.
Lemma ef_build_ok vs : monotone vs -> Forall (fun v => (v < W64)%N) vs -> exists e, ef_build vs = Ok e /\ ef_ok e vs.
Proof.
  intros [Hne Hs] Hw. apply sorted_nondec in Hs. unfold ef_build. destruct vs as [|v0 vs'] eqn:Ev; [congruence|]. rewrite <- Ev in *.
  assert (Hn : 0 < length vs) by (rewrite Ev; cbn; lia). rewrite (last_nth vs 0%N) by assumption. set (u := nth (length vs - 1) vs 0%N).
  assert (Hu : (u < W64)%N) by (apply (proj1 (Forall_forall _ _) Hw), nth_In; lia).
  unfold ef_compress. destruct (ef_width_ok (length vs) u Hu) as (l & -> & Hl). cbn [bind]. rewrite shr_ok by assumption. cbn [bind].
  fold (hpart l u). set (M := length vs + hpart l u + 1). destruct (new_ok M false) as (high & -> & Hhigh). cbn [bind].
  rewrite shl_ok by assumption. cbn [bind]. rewrite mask_ones by assumption.
  assert (HM : forall i, i < length vs -> hpos l vs i < M).
  { intros i Hi. unfold hpos, M. pose proof (hpart_mono l _ _ (Hs i (length vs - 1) ltac:(lia) ltac:(lia))). fold u in H. lia. }
  destruct (ef_fill_ok l M Hl vs [] bvb_empty high (repeat false M)) as (low' & high' & H' & E & H1 & H2 & H3 & H4); auto.
  - apply empty_ok.
  - apply repeat_length.
  - split; [cbn; lia|]. intros p. split; [|cbn; intros (i & Hi & _); lia]. rewrite nth_repeat_if. now destruct (_ <? _).
  - cbn [length List.last app] in E. rewrite E. cbn [bind app] in *.
    destruct (da_build_ok false (bv_build high')) as (d & -> & Hd); [apply H2|]. cbn [bind]. eexists; split; [reflexivity|].
    assert (Hsz : b_size high' = M) by (rewrite (bo_size _ _ H2); assumption).
    split; cbn [ef_l ef_high ef_d1 ef_low ef_size bv_build v_words v_size]; auto.
    + apply H1.
    + apply H2.
    + rewrite Hsz, <- H3. eapply repr_fit; [apply H2|reflexivity].
    + split; [apply H4|]. intros p. rewrite (repr_bits _ _ (bo_repr _ _ H2)). apply H4.
    + rewrite Hsz. assumption.
Qed.

(** ** Reading *)
Lemma ef_num_ones_ok e vs : ef_ok e vs -> ef_num_ones e = length vs.
Proof.
  intros H. unfold ef_num_ones. rewrite (do_n _ _ _ (eo_d1 _ _ H)).
  rewrite <- (marks_total _ _ _ (64 * length (v_words (ef_high e))) (eo_mark _ _ H)).
  - apply cnt_ext. intros j Hj. unfold upto, gbit. destruct (Nat.ltb_spec j (v_size (ef_high e))) as [L|L]; [apply andb_true_r|]. rewrite andb_false_r. symmetry.
    destruct (bitat (v_words (ef_high e)) j) eqn:E; [|reflexivity]. apply (mk_iff _ _ _ (eo_mark _ _ H)) in E as (i & Hi & E). pose proof (eo_in _ _ H i Hi). lia.
  - intros i Hi. pose proof (eo_in _ _ H i Hi). pose proof (eo_fit _ _ H). lia.
Qed.
Lemma ef_select_ok e vs i : ef_ok e vs -> i < length vs -> da_select false (ef_d1 e) (ef_high e) (ef_fuel e) i = Ok (hpos (ef_l e) vs i).
Proof.
  intros H Hi. destruct (da_select_ok false (ef_high e) (ef_d1 e) i (ef_fuel e)) as (p & E & Hp & Hb & Hc); try apply H.
  - fold (ef_num_ones e). now rewrite (ef_num_ones_ok e vs).
  - unfold ef_fuel. lia.
  - rewrite E. f_equal. destruct (marks_at _ _ _ i (eo_mark _ _ H) Hi) as [Hb' Hc']. apply (cnt_inj (bitat (v_words (ef_high e)))); auto.
    change (gbit false (v_words (ef_high e))) with (bitat (v_words (ef_high e))) in *. lia.
Qed.
Lemma ef_value_ok e vs i : ef_ok e vs -> i < length vs ->
  ef_value (ef_l e) (hpos (ef_l e) vs i) i (nth i vs 0 mod 2 ^ N.of_nat (ef_l e))%N = Ok (nth i vs 0%N).
Proof.
  intros H Hi. unfold ef_value, hpos. destruct (Nat.ltb_spec (hpart (ef_l e) (nth i vs 0%N) + i) i); [lia|]. rewrite shl_ok by apply H. cbn [bind].
  replace (hpart (ef_l e) (nth i vs 0%N) + i - i) with (hpart (ef_l e) (nth i vs 0%N)) by lia. unfold hpart. rewrite N2Nat.id. f_equal. apply join_parts; [apply H|].
  apply (proj1 (Forall_forall _ _) (eo_w _ _ H)), nth_In. assumption.
Qed.
Lemma ef_low_fit e vs i : ef_ok e vs -> i < length vs -> i * ef_l e + ef_l e <= 64 * length (v_words (ef_low e)).
Proof. intros H Hi. apply (repr_fit _ _ _ (eo_low _ _ H)). rewrite packed_length. nia. Qed.
Lemma ef_access_ok e vs i : ef_ok e vs -> i < length vs -> ef_access e i = Ok (nth i vs 0%N).
Proof.
  intros H Hi. unfold ef_access. rewrite (ef_select_ok e vs) by assumption. cbn [bind].
  destruct (get_bits_ok (ef_low e) (i * ef_l e) (ef_l e)) as (r & -> & Hf); [apply H|apply H|now apply ef_low_fit with vs|]. cbn [bind].
  rewrite (packed_bits (v_words (ef_low e)) (ef_l e) vs [] [] i r); [now apply ef_value_ok| |assumption|assumption].
  cbn [app]. rewrite app_nil_r. apply H.
Qed.

(** ** The iterator *)
(** The first k chunks of the buffer are the low parts of the values from pos on. *)
Definition buf_ok (e : efs) (vs : list N) (pos : nat) (buf : N) (k : nat) : Prop :=
  (buf < W64)%N /\ forall j c, j < k -> c < ef_l e -> pos + j < length vs -> tb buf (j * ef_l e + c) = tb (nth (pos + j) vs 0%N) c.
Record it_ok (e : efs) (vs : list N) (it : efit) (pos : nat) : Prop := {
  io_val : x_val it = List.last vs 0%N \/ pos < length vs;
  io_pos : x_pos it = pos;
  io_high : x_high it = hpos (ef_l e) vs pos;
  io_upos : u_pos (x_enum it) = hpos (ef_l e) vs pos;
  io_enum : ui_ok (v_words (ef_high e)) (x_enum it) (hpos (ef_l e) vs pos + 1)
}.
Lemma buf_shift e vs pos buf k : ef_l e < 64 -> buf_ok e vs pos buf (S k) -> buf_ok e vs (pos + 1) (N.shiftr buf (N.of_nat (ef_l e))) k.
Proof.
  intros Hl [Hw H]. split; [now apply shiftr_lt|]. intros j c Hj Hc Hp. rewrite tb_shiftr. replace (j * ef_l e + c + ef_l e) with (S j * ef_l e + c) by lia.
  rewrite H by lia. f_equal. f_equal. lia.
Qed.
Lemma buf_load e vs pos : ef_ok e vs -> pos < length vs -> ef_l e <> 0 ->
  exists w, get_word64 (v_words (ef_low e)) (pos * ef_l e) = Ok w /\ buf_ok e vs pos w (64 / ef_l e).
Proof.
  intros H Hp Hl. pose proof (ef_low_fit e vs pos H Hp) as Hfit.
  destruct (get_word64_ok (v_words (ef_low e)) (pos * ef_l e)) as (w & -> & Hf); [apply H|lia|]. exists w. split; [reflexivity|].
  split; [apply field_lt in Hf; now rewrite W64_pow|]. intros j c Hj Hc Hpj. rewrite Hf.
  assert (Hjl : (j + 1) * ef_l e <= 64).
  { pose proof (Nat.mul_div_le 64 (ef_l e) Hl). assert ((j + 1) * ef_l e <= 64 / ef_l e * ef_l e) by (apply Nat.mul_le_mono_r; lia). lia. }
  destruct (Nat.ltb_spec (j * ef_l e + c) 64); [|lia]. cbn [andb]. rewrite (repr_bits _ _ (eo_low _ _ H)).
  replace (pos * ef_l e + (j * ef_l e + c)) with ((pos + j) * ef_l e + c) by lia. now apply packed_nth.
Qed.
(** Enough chunks left when there are no low parts. *)
Definition avail_ok (e : efs) (vs : list N) (pos avail : nat) : Prop := ef_l e = 0 -> length vs <= pos + avail.

Lemma ef_at_ok e vs pos : ef_ok e vs -> pos < length vs -> exists it, ef_at e pos = Ok it /\ it_ok e vs it pos /\
  buf_ok e vs pos (x_buf it) (S (x_avail it)) /\ avail_ok e vs pos (x_avail it).
Proof.
  intros H Hp. unfold ef_at, ef_universe. rewrite (eo_size _ _ H). destruct (Nat.eqb_spec (length vs) 0); [lia|].
  rewrite (ef_access_ok e vs) by (assumption || lia). cbn [bind].
  assert (Hb : exists buf avail, (if negb (ef_l e =? 0) then do w <- get_word64 (v_words (ef_low e)) (pos * ef_l e); Ok (w, 64 / ef_l e - 1) else Ok (0%N, ef_num_ones e)) = Ok (buf, avail) /\
     buf_ok e vs pos buf (S avail) /\ avail_ok e vs pos avail).
  { destruct (Nat.eqb_spec (ef_l e) 0) as [E|E]; cbn [negb].
    - exists 0%N, (ef_num_ones e). split; [reflexivity|]. split; [split; [reflexivity|]; intros; lia|]. intros _. rewrite (ef_num_ones_ok e vs H). lia.
    - destruct (buf_load e vs pos H Hp E) as (w & -> & Hw). cbn [bind]. exists w, (64 / ef_l e - 1). split; [reflexivity|]. split; [|intros E'; congruence].
      pose proof (eo_l _ _ H). assert (1 <= 64 / ef_l e) by (apply Nat.div_le_lower_bound; lia). now replace (S (64 / ef_l e - 1)) with (64 / ef_l e) by lia. }
  destruct Hb as (buf & avail & -> & Hbuf & Hav). cbn [bind]. rewrite (ef_num_ones_ok e vs H). destruct (Nat.eqb_spec (length vs) 0); [lia|].
  rewrite (ef_select_ok e vs) by assumption. cbn [bind]. destruct (marks_at _ _ _ pos (eo_mark _ _ H) Hp) as [Hbit _].
  destruct (ui_new_ok (v_words (ef_high e)) (hpos (ef_l e) vs pos)) as (en & -> & Hpos & Hen); [apply H|now apply bitat_in|]. cbn [bind].
  pose proof (Nat.div_mod (hpos (ef_l e) vs pos) 64 ltac:(lia)) as Ed. pose proof (Nat.mod_upper_bound (hpos (ef_l e) vs pos) 64 ltac:(lia)).
  destruct (ui_next_ok (v_words (ef_high e)) en (hpos (ef_l e) vs pos) (hpos (ef_l e) vs pos) (ef_fuel e)) as (en' & -> & Hpos' & Hen');
    [apply H|assumption|rewrite Hpos; lia|rewrite Hpos; lia|lia|assumption|intros j Hj; lia|rewrite Hpos; unfold ef_fuel; lia|].
  cbn [bind]. eexists; split; [reflexivity|]. split; [|auto]. constructor; cbn [x_val x_pos x_high x_enum]; auto.
Qed.
Lemma ef_enum_next e vs it pos : ef_ok e vs -> it_ok e vs it pos -> pos + 1 < length vs ->
  exists en', ui_next (v_words (ef_high e)) (ef_fuel e) (x_enum it) = Ok (hpos (ef_l e) vs (pos + 1), en') /\ u_pos en' = hpos (ef_l e) vs (pos + 1) /\
    ui_ok (v_words (ef_high e)) en' (hpos (ef_l e) vs (pos + 1) + 1).
Proof.
  intros H Hi Hp. destruct (marks_at _ _ _ (pos + 1) (eo_mark _ _ H) Hp) as [Hbit _].
  pose proof (mk_inc _ _ _ (eo_mark _ _ H) pos (pos + 1) ltac:(lia) Hp) as Hlt.
  pose proof (Nat.div_mod (hpos (ef_l e) vs pos) 64 ltac:(lia)) as Ed. pose proof (Nat.mod_upper_bound (hpos (ef_l e) vs pos) 64 ltac:(lia)).
  apply ui_next_ok with (q := hpos (ef_l e) vs pos + 1); [apply H|apply Hi|rewrite (io_upos _ _ _ _ Hi); lia|rewrite (io_upos _ _ _ _ Hi); lia|lia|assumption| |].
  - intros j Hj. apply (marks_gap _ _ _ pos j (eo_mark _ _ H) Hp). lia.
  - assert (hpos (ef_l e) vs (pos + 1) / 64 < length (v_words (ef_high e))) by (apply Nat.div_lt_upper_bound; [lia|]; now apply bitat_in). unfold ef_fuel. lia.
Qed.
Lemma ef_refill_ok e vs pos buf avail : ef_ok e vs -> pos < length vs -> buf_ok e vs pos buf avail -> (ef_l e = 0 -> 0 < avail) ->
  exists buf' avail', ef_refill e pos buf avail = Ok (buf', avail') /\ buf_ok e vs pos buf' (S avail') /\ (ef_l e = 0 -> avail' = avail - 1).
Proof.
  intros H Hp Hb Ha. unfold ef_refill. destruct avail as [|a].
  - destruct (Nat.eq_dec (ef_l e) 0) as [E|E]; [specialize (Ha E); lia|]. destruct (buf_load e vs pos H Hp E) as (w & -> & Hw). cbn [bind].
    destruct (Nat.eqb_spec (ef_l e) 0); [lia|]. do 2 eexists. split; [reflexivity|]. split; [|intros E'; congruence].
    pose proof (eo_l _ _ H). assert (1 <= 64 / ef_l e) by (apply Nat.div_le_lower_bound; lia). now replace (S (64 / ef_l e - 1)) with (64 / ef_l e) by lia.
  - do 2 eexists. split; [reflexivity|]. split; [assumption|]. intros E. lia.
Qed.
Lemma ef_current_ok e vs it pos buf k : ef_ok e vs -> it_ok e vs it pos -> pos < length vs -> buf_ok e vs pos buf (S k) -> ef_current e it buf = Ok (nth pos vs 0%N).
Proof.
  intros H Hi Hp [_ Hb]. unfold ef_current. rewrite shl_ok by apply H. cbn [bind]. rewrite mask_ones by apply H. rewrite (io_high _ _ _ _ Hi), (io_pos _ _ _ _ Hi).
  replace (N.land buf (N.ones (N.of_nat (ef_l e)))) with (nth pos vs 0 mod 2 ^ N.of_nat (ef_l e))%N; [now apply ef_value_ok|].
  apply tb_ext. intros c. rewrite tb_mod_pow, tb_land, tb_ones. destruct (Nat.ltb_spec c (ef_l e)); cbn [andb]; [|now rewrite andb_false_r].
  rewrite andb_true_r. specialize (Hb 0 c). rewrite Nat.add_0_r in Hb. cbn [Nat.mul Nat.add] in Hb. symmetry. apply Hb; lia.
Qed.

Lemma ef_incr_ok e vs it pos : ef_ok e vs -> it_ok e vs it pos -> pos + 1 < length vs -> buf_ok e vs pos (x_buf it) (S (x_avail it)) -> avail_ok e vs pos (x_avail it) ->
  exists it', ef_incr e it = Ok it' /\ it_ok e vs it' (pos + 1) /\ buf_ok e vs (pos + 1) (x_buf it') (S (x_avail it')) /\ avail_ok e vs (pos + 1) (x_avail it').
Proof.
  intros H Hi Hp Hb Ha. unfold ef_incr. rewrite (io_pos _ _ _ _ Hi), (eo_size _ _ H). destruct (Nat.eqb_spec (pos + 1) (length vs)); [lia|].
  destruct (ef_enum_next e vs it pos H Hi Hp) as (en & -> & E1 & E2). cbn [bind]. rewrite shr_ok by apply H. cbn [bind].
  apply buf_shift in Hb; [|apply H].
  destruct (ef_refill_ok e vs (pos + 1) _ (x_avail it) H Hp Hb) as (buf & avail & -> & Hbuf & Hav); [intros E; specialize (Ha E); lia|]. cbn [bind].
  eexists; split; [reflexivity|]. split; [constructor; cbn [x_val x_pos x_high x_enum]; auto|]. split; [assumption|]. intros E. specialize (Ha E). specialize (Hav E). cbn [x_avail]. lia.
Qed.
Lemma ef_incrs_ok e vs : ef_ok e vs -> forall j it pos, it_ok e vs it pos -> pos + j < length vs -> buf_ok e vs pos (x_buf it) (S (x_avail it)) -> avail_ok e vs pos (x_avail it) ->
  exists it', ef_incrs e it j = Ok it' /\ it_ok e vs it' (pos + j) /\ buf_ok e vs (pos + j) (x_buf it') (S (x_avail it')).
Proof.
  intros H. induction j as [|j IH]; intros it pos Hi Hp Hb Ha; cbn [ef_incrs].
  - rewrite Nat.add_0_r. eauto.
  - destruct (ef_incr_ok e vs it pos H Hi ltac:(lia) Hb Ha) as (it' & -> & H1 & H2 & H3). cbn [bind].
    destruct (IH it' (pos + 1) H1 ltac:(lia) H2 H3) as (it'' & E & H4). exists it''. split; [assumption|]. now replace (pos + S j) with (pos + 1 + j) by lia.
Qed.
Lemma ef_iterate_ok e vs lo j : ef_ok e vs -> lo + j < length vs -> ef_iterate e lo j = Ok (nth (lo + j) vs 0%N).
Proof.
  intros H Hj. unfold ef_iterate. destruct (ef_at_ok e vs lo H ltac:(lia)) as (it & -> & Hi & Hb & Ha). cbn [bind].
  destruct (ef_incrs_ok e vs H j it lo Hi Hj Hb Ha) as (it' & -> & Hi' & Hb'). cbn [bind]. unfold ef_deref.
  rewrite (io_pos _ _ _ _ Hi'), (eo_size _ _ H). destruct (Nat.eqb_spec (lo + j) (length vs)); [lia|]. eapply ef_current_ok; eauto.
Qed.
Lemma ef_seqc_ok vs : monotone vs -> Forall (fun v => (v < W64)%N) vs -> exists q, ef_seqc vs = Ok q /\ holds vs q.
Proof.
  intros Hm Hw. destruct (ef_build_ok vs Hm Hw) as (e & E & H). unfold ef_seqc. rewrite E. cbn [bind]. eexists; split; [reflexivity|].
  split; cbn [q_size q_acc q_itr]; [apply H|]. split; intros; [now apply ef_access_ok|now apply ef_iterate_ok].
Qed.

(** next(): every value but the last one. *)
Lemma ef_next_ok e vs it pos : ef_ok e vs -> it_ok e vs it pos -> pos + 1 < length vs -> buf_ok e vs pos (x_buf it) (x_avail it) -> avail_ok e vs pos (x_avail it) ->
  exists it', ef_next e it = Ok (nth pos vs 0%N, it') /\ it_ok e vs it' (pos + 1) /\ buf_ok e vs (pos + 1) (x_buf it') (x_avail it') /\ avail_ok e vs (pos + 1) (x_avail it').
Proof.
  intros H Hi Hp Hb Ha. unfold ef_next. rewrite (io_pos _ _ _ _ Hi), (eo_size _ _ H). destruct (Nat.eqb_spec pos (length vs)); [lia|].
  destruct (ef_refill_ok e vs pos (x_buf it) (x_avail it) H ltac:(lia) Hb) as (buf & avail & -> & Hbuf & Hav); [intros E; specialize (Ha E); lia|]. cbn [bind].
  rewrite (ef_current_ok e vs it pos buf avail) by (assumption || lia). cbn [bind]. rewrite shr_ok by apply H. cbn [bind].
  destruct (ef_enum_next e vs it pos H Hi Hp) as (en & -> & E1 & E2). cbn [bind]. eexists; split; [reflexivity|].
  split; [constructor; cbn [x_val x_pos x_high x_enum]; auto|]. cbn [x_buf x_avail]. split; [apply buf_shift; [apply H|assumption]|].
  intros E. specialize (Ha E). specialize (Hav E). lia.
Qed.
Lemma buf_less e vs pos buf k k' : buf_ok e vs pos buf k -> k' <= k -> buf_ok e vs pos buf k'.
Proof. intros [Hw H] Hk. split; [assumption|]. intros j c Hj. apply H. lia. Qed.
Lemma ef_nexts_ok e vs : ef_ok e vs -> forall n it pos, it_ok e vs it pos -> pos + n < length vs -> buf_ok e vs pos (x_buf it) (x_avail it) -> avail_ok e vs pos (x_avail it) ->
  ef_nexts e it n = Ok (firstn n (skipn pos vs)).
Proof.
  intros H. induction n as [|n IH]; intros it pos Hi Hp Hb Ha; cbn [ef_nexts]; [reflexivity|].
  destruct (ef_next_ok e vs it pos H Hi ltac:(lia) Hb Ha) as (it' & -> & H1 & H2 & H3). cbn [bind].
  rewrite (IH it' (pos + 1)) by (assumption || lia). cbn [bind]. rewrite Nat.add_1_r.
  destruct (skipn pos vs) as [|v r] eqn:E; [apply (f_equal (@length N)) in E; rewrite skipn_length in E; cbn in E; lia|].
  rewrite (skipn_cons_inv _ _ _ _ E). cbn [firstn]. f_equal. f_equal. rewrite <- (Nat.add_0_r pos), <- nth_skipn', E. reflexivity.
Qed.
(** The call for the last value looks for one more position in the high bits, past their end. *)
Lemma ui_next_ub ws u q : words ws -> ui_ok ws u q -> q <= 64 * (u_pos u / 64 + 1) -> (forall j, q <= j -> bitat ws j = false) ->
  forall fuel, length ws - u_pos u / 64 < fuel -> ui_next ws fuel u = UB.
Proof.
  intros Hw [Hbl Hb] Hq Hz fuel Hf. unfold ui_next.
  assert (E0 : u_buf u = 0%N).
  { apply tb_ext. intros i. destruct (Nat.lt_ge_cases i 64) as [L|L].
    - rewrite Hb by assumption. unfold from_. destruct (Nat.leb_spec q (64 * (u_pos u / 64) + i)); [|now rewrite tb_of]. now rewrite Hz, tb_of.
    - rewrite tb_high, tb_of by assumption. reflexivity. }
  rewrite E0. clear Hbl Hb E0. revert Hq Hf. generalize (u_pos u). induction fuel as [|fuel IH]; intros pos Hq Hf; [lia|].
  cbn [loop]. unfold ui_next_step at 1. cbn [lsb2 N.eqb bind]. replace (pos + 64) with (pos + 1 * 64) by lia. rewrite Nat.div_add by lia.
  unfold get. destruct (nth_error ws (pos / 64 + 1)) as [w|] eqn:Ew; [|reflexivity]. cbn [bind].
  assert (E : w = 0%N).
  { apply tb_ext. intros i. destruct (Nat.lt_ge_cases i 64) as [L|L].
    - rewrite tb_of. rewrite <- (nth_error_nth _ _ 0%N Ew), <- bitat_eq by assumption. apply Hz. lia.
    - rewrite tb_of. apply tb_high; [|assumption]. rewrite <- (nth_error_nth _ _ 0%N Ew). now apply nth_word. }
  subst w. assert (Hlt : pos / 64 + 1 < length ws) by (apply nth_error_Some; congruence). apply IH.
  - rewrite Nat.div_add by lia. lia.
  - rewrite Nat.div_add by lia. lia.
Qed.
Lemma ef_next_last e vs it pos : ef_ok e vs -> it_ok e vs it pos -> pos + 1 = length vs -> buf_ok e vs pos (x_buf it) (x_avail it) -> avail_ok e vs pos (x_avail it) ->
  ef_next e it = UB.
Proof.
  intros H Hi Hp Hb Ha. unfold ef_next. rewrite (io_pos _ _ _ _ Hi), (eo_size _ _ H). destruct (Nat.eqb_spec pos (length vs)); [lia|].
  destruct (ef_refill_ok e vs pos (x_buf it) (x_avail it) H ltac:(lia) Hb) as (buf & avail & -> & Hbuf & Hav); [intros E; specialize (Ha E); lia|]. cbn [bind].
  rewrite (ef_current_ok e vs it pos buf avail) by (assumption || lia). cbn [bind]. rewrite shr_ok by apply H. cbn [bind].
  rewrite (ui_next_ub _ _ (hpos (ef_l e) vs pos + 1)); [reflexivity|apply H|apply Hi| | |unfold ef_fuel; lia].
  - rewrite (io_upos _ _ _ _ Hi). pose proof (Nat.div_mod (hpos (ef_l e) vs pos) 64 ltac:(lia)). pose proof (Nat.mod_upper_bound (hpos (ef_l e) vs pos) 64 ltac:(lia)). lia.
  - intros j Hj. apply (marks_last _ _ _ j (eo_mark _ _ H)); [lia|]. replace (length vs - 1) with pos by lia. lia.
Qed.
Lemma ef_nexts_last e vs : ef_ok e vs -> forall n it pos, it_ok e vs it pos -> pos + n = length vs -> 0 < n -> buf_ok e vs pos (x_buf it) (x_avail it) -> avail_ok e vs pos (x_avail it) ->
  ef_nexts e it n = UB.
Proof.
  intros H. induction n as [|n IH]; intros it pos Hi Hp Hn Hb Ha; cbn [ef_nexts]; [lia|].
  destruct n as [|n].
  - rewrite (ef_next_last e vs it pos) by assumption. reflexivity.
  - destruct (ef_next_ok e vs it pos H Hi ltac:(lia) Hb Ha) as (it' & -> & H1 & H2 & H3). cbn [bind].
    rewrite (IH it' (pos + 1)) by (assumption || lia). reflexivity.
Qed.
Lemma ef_begin_nexts e vs n : ef_ok e vs -> n < length vs -> (do it <- ef_begin e; ef_nexts e it n) = Ok (firstn n vs).
Proof.
  intros H Hn. unfold ef_begin. destruct (ef_at_ok e vs 0 H ltac:(lia)) as (it & -> & Hi & Hb & Ha). cbn [bind].
  rewrite (ef_nexts_ok e vs H n it 0); auto. eapply buf_less; eauto.
Qed.
Lemma ef_begin_last e vs : ef_ok e vs -> vs <> [] -> (do it <- ef_begin e; ef_nexts e it (length vs)) = UB.
Proof.
  intros H Hn. assert (0 < length vs) by (destruct vs; [congruence|cbn; lia]). unfold ef_begin. destruct (ef_at_ok e vs 0 H ltac:(lia)) as (it & -> & Hi & Hb & Ha). cbn [bind].
  apply (ef_nexts_last e vs H) with (pos := 0); auto. eapply buf_less; eauto.
Qed.

(** ** The two-argument build *)
From Verif Require Import P_Find.
Lemma gsums_le : forall gs prev x, In x (concat (gsums prev gs)) -> (x <= prev + fold_right N.add 0 (concat gs))%N.
Proof.
  assert (Hadd : forall a b : list N, fold_right N.add 0%N (a ++ b) = (fold_right N.add 0 a + fold_right N.add 0 b)%N).
  { induction a as [|y a IH]; intros b; cbn; [reflexivity|]. rewrite IH. lia. }
  assert (Hin : forall (g : list N) y, In y g -> (y <= fold_right N.add 0 g)%N).
  { induction g as [|z g IH]; intros y []; cbn; [subst; lia|]. specialize (IH y H). lia. }
  induction gs as [|g gs IH]; intros prev x Hx; cbn [gsums concat] in *; [destruct Hx|].
  rewrite Hadd. apply in_app_iff in Hx as [Hx|Hx].
  - apply in_map_iff in Hx as (v & <- & Hv). apply Hin in Hv. lia.
  - apply IH in Hx. assert (Hl : (List.last (map (fun v => (v + prev)%N) g) prev <= prev + fold_right N.add 0 g)%N); [|lia].
    destruct (list_eq_dec N.eq_dec g []) as [->|Hg]; [cbn; lia|].
    assert (Hi : In (List.last (map (fun v => (v + prev)%N) g) prev) (map (fun v => (v + prev)%N) g)).
    { destruct (exists_last Hg) as (g' & y & ->). rewrite map_app. cbn [map]. rewrite last_last. apply in_app_iff. right. now left. }
    apply in_map_iff in Hi as (v & <- & Hv). apply Hin in Hv. lia.
Qed.
Lemma ef_build2_ok groups : concat groups <> [] -> Forall (StronglySorted N.le) groups -> (fold_right N.add 0 (concat groups) < W64)%N ->
  exists e vals, ef_build2 (concat groups) (group_pointers groups) = Ok e /\ ef_size e = length (concat groups) /\ length vals = length (concat groups) /\
    reads vals (ef_access e) (ef_iterate e) /\
    forall k p, group_begin groups k <= p < group_begin groups (S k) ->
      nth p vals 0%N = (nth p (concat groups) 0 + match group_begin groups k with O => 0 | S b => nth b vals 0 end)%N.
Proof.
  intros Hne Hs Hsum. unfold ef_build2. rewrite level_vals by (intros ->; now apply Hne). cbn [bind].
  pose proof (concat_gsums_length groups 0) as Hlen. set (vals := concat (gsums 0 groups)) in *.
  assert (Hm : monotone vals).
  { split; [intros E; rewrite E in Hlen; destruct (concat groups); [now apply Hne|discriminate]|]. apply (gsums_sorted groups 0 Hs). }
  assert (Hw : Forall (fun v => (v < W64)%N) vals).
  { apply Forall_forall. intros x Hx. apply gsums_le in Hx. lia. }
  destruct (ef_build_ok vals Hm Hw) as (e & E & H). exists e, vals. split; [assumption|]. split; [rewrite (eo_size _ _ H); assumption|]. split; [assumption|].
  split; [split; intros; [now apply ef_access_ok|now apply ef_iterate_ok]|]. intros k p Hp. exact (gsums_nth groups 0 k p Hp).
Qed.
