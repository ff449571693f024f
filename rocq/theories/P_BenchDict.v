(** Proofs about the benchmark programs of the dictionaries. *)
From Coq Require Import Permutation.
From Verif Require Import Base S_Order S_Vocab S_Completions S_Parse S_Text S_Trie S_Collection S_Files S_Containers S_Tools S_BenchDict.
From Verif Require Import M_Compare M_Fc M_IntFc M_Trie M_Auto M_Input M_Tools M_Bench M_BenchDict.
From Verif Require Import M_Parse M_Find M_Containers M_Auto1.
From Verif Require Import P_Trie P_FcGen P_Fc P_IntFc P_Kept P_Parse P_ParseFc P_TrieBuild P_TrieSearch P_TrieFinal P_Containers P_Input P_Files P_Tools.
Local Open Scope nat_scope.

(** ** Loops *)
Lemma each_ok {A B St} (f : A -> St -> res (B * St)) (I : St -> Prop) (R : A -> B -> Prop) l :
  (forall x s, In x l -> I s -> exists y s', f x s = Ok (y, s') /\ I s' /\ R x y) ->
  forall s, I s -> exists ys s', each f l s = Ok (ys, s') /\ I s' /\ Forall2 R l ys.
Proof.
  induction l as [|x l IH]; intros H s Hs; [exists [], s; repeat split; auto|].
  destruct (H x s (or_introl eq_refl) Hs) as (y & s1 & E & H1 & Hy). cbn [each]. rewrite E. cbn [bind].
  destruct (IH (fun z s0 Hz => H z s0 (or_intror Hz)) s1 H1) as (ys & s2 & E2 & H2 & Hys). rewrite E2. cbn [bind]. exists (y :: ys), s2. repeat split; auto.
Qed.
Lemma each_UB {A B St} (f : A -> St -> res (B * St)) (I : St -> Prop) l :
  (forall x s, In x l -> I s -> (exists y s', f x s = Ok (y, s') /\ I s') \/ f x s = UB) ->
  (exists x, In x l /\ forall s, I s -> f x s = UB) -> forall s, I s -> each f l s = UB.
Proof.
  induction l as [|x l IH]; intros H (z & Hz & Hu) s Hs; [destruct Hz|]. cbn [each].
  destruct (H x s (or_introl eq_refl) Hs) as [(y & s1 & E & H1)|E]; [|now rewrite E].
  destruct Hz as [->|Hz]; [now rewrite Hu|]. rewrite E. cbn [bind]. rewrite IH; auto; [|eauto]. intros x0 s0 Hx0. apply H. now right.
Qed.
Lemma times_ok {B St} (f : St -> res (B * St)) (I : St -> Prop) (R : B -> Prop) n :
  (forall s, I s -> exists y s', f s = Ok (y, s') /\ I s' /\ R y) ->
  forall s, I s -> exists ys s', times n f s = Ok (ys, s') /\ I s' /\ length ys = n /\ Forall R ys.
Proof.
  intros H. induction n as [|n IH]; intros s Hs; [exists [], s; repeat split; auto|].
  destruct (H s Hs) as (y & s1 & E & H1 & Hy). cbn [times]. rewrite E. cbn [bind].
  destruct (IH s1 H1) as (ys & s2 & E2 & H2 & Hl & Hys). rewrite E2. cbn [bind]. exists (y :: ys), s2. repeat split; auto. cbn [length]. now rewrite Hl.
Qed.
Lemma map_res_all {A B} (f : A -> res B) (R : A -> B -> Prop) l : (forall x, In x l -> exists y, f x = Ok y /\ R x y) -> exists ys, map_res f l = Ok ys /\ Forall2 R l ys.
Proof.
  induction l as [|x l IH]; intros H; [exists []; auto|]. destruct (H x (or_introl eq_refl)) as (y & E & Hy). cbn [map_res]. rewrite E. cbn [bind].
  destruct IH as (ys & E2 & Hys); [intros z Hz; apply H; now right|]. rewrite E2. cbn [bind]. eauto.
Qed.
Lemma map_res_UB {A B} (f : A -> res B) l : (forall x, In x l -> (exists y, f x = Ok y) \/ f x = UB) -> (exists x, In x l /\ f x = UB) -> map_res f l = UB.
Proof.
  induction l as [|x l IH]; intros H (z & Hz & Hu); [destruct Hz|]. cbn [map_res].
  destruct (H x (or_introl eq_refl)) as [(y & E)|E]; [|now rewrite E]. destruct Hz as [->|Hz]; [now rewrite Hu|]. rewrite E. cbn [bind]. rewrite IH; eauto. intros x0 Hx0. apply H. now right.
Qed.
Lemma Forall2_In_l {A B} (R : A -> B -> Prop) l1 l2 x : Forall2 R l1 l2 -> In x l1 -> exists y, In y l2 /\ R x y.
Proof.
  induction 1 as [|a b l1 l2 Hab _ IH]; intros H; [destruct H|]. destruct H as [->|H]; [exists b; split; [now left|exact Hab]|].
  destruct (IH H) as (y & Hy & Hr). exists y. split; [now right|exact Hr].
Qed.
Lemma Forall2_In_r {A B} (R : A -> B -> Prop) l1 l2 y : Forall2 R l1 l2 -> In y l2 -> exists x, In x l1 /\ R x y.
Proof.
  induction 1 as [|a b l1 l2 Hab _ IH]; intros H; [destruct H|]. destruct H as [->|H]; [exists a; split; [now left|exact Hab]|].
  destruct (IH H) as (x & Hx & Hr). exists x. split; [now right|exact Hr].
Qed.
Lemma Forall2_trans {A B C} (R : A -> B -> Prop) (S : B -> C -> Prop) (T : A -> C -> Prop) : (forall a b c, R a b -> S b c -> T a c) ->
  forall l1 l2 l3, Forall2 R l1 l2 -> Forall2 S l2 l3 -> Forall2 T l1 l3.
Proof. intros H l1 l2 l3 H1. revert l3. induction H1; intros l3 H2; inversion H2; subst; constructor; eauto. Qed.

(** ** Numbers behind the last string *)
Section Behind.
  Context {bucket : bucket_size}.
  Variable wr : list N -> list N -> list N.
  Variable decode : list N -> nat -> list N -> nat -> res (nat * nat * list N).
  Variables w MX PAD : nat.
  Variable Good : list N -> Prop.
  Hypothesis Good_len : forall s, Good s -> length s <= MX.
  Hypothesis decode_ok : forall mem cur out base prev s rest,
    skipn cur mem = wr prev s ++ rest -> PAD <= length rest -> Good s -> Good prev -> base + lcp s prev + MX <= length out ->
    firstn (length prev) (skipn base out) = prev ->
    exists out', decode mem cur out base = Ok (length s, lcp s prev, out') /\ length out' = length out /\ firstn base out' = firstn base out /\
      firstn (length s) (skipn base out') = s /\ skipn (cur + (length s - lcp s prev) * w + 2) mem = rest.
  Hypothesis decode_end : forall mb out base, decode (mb ++ repeat 0%N PAD) (length mb) out base = UB.

  Lemma extract_loop_behind mb : 0 < PAD -> forall ss k prev cur len out base, skipn cur (mb ++ repeat 0%N PAD) = encs wr prev ss ++ repeat 0%N PAD ->
    Forall Good ss -> Good prev -> length ss < k -> base + 2 * MX <= length out -> firstn (length prev) (skipn base out) = prev ->
    fc_extract_loop (decode (mb ++ repeat 0%N PAD)) w k cur len out base = UB.
  Proof using Good_len decode_ok decode_end.
    intros HP. induction ss as [|s ss IH]; intros k prev cur len out base Hm Hss Hp Hk Ho Hf; (destruct k as [|k]; [cbn [length] in Hk; lia|]); cbn [fc_extract_loop].
    - cbn [encs app] in Hm. assert (cur = length mb) as ->; [|now rewrite decode_end].
      apply (f_equal (@length N)) in Hm. rewrite skipn_length, app_length, repeat_length in Hm. lia.
    - inversion Hss as [|? ? Hs Hss']; subst. cbn [encs] in Hm. rewrite <- app_assoc in Hm.
      pose proof (lcp_le_r s prev) as Hlr. pose proof (lcp_le_l s prev) as Hll. pose proof (Good_len _ Hp) as Hpl.
      destruct (decode_ok _ cur out base prev s (encs wr s ss ++ repeat 0%N PAD) Hm) as (out' & E & Hlen & Hfb & Hf' & Hsk); auto.
      { rewrite app_length, repeat_length. lia. } { lia. }
      rewrite E. cbn [bind]. destruct (Nat.ltb_spec (length s) (lcp s prev)); [lia|]. cbn [length] in Hk. apply (IH k s); auto; lia.
  Qed.
End Behind.
Section Last.
  Context {bucket : bucket_size}.
  Variable wr : list N -> list N -> list N.
  Variable term : list N -> list N.
  Variable R : list N -> list N -> Prop.
  Variable wrR : list N -> list N -> res (list N).
  Variable wh : list N -> list N.
  Hypothesis Hwr : forall p s, R p s -> wrR (term p) (term s) = Ok (wr p s).
  Hypothesis Hwh : forall h, wh (term h) = h.
  Lemma last_bucket_bytes terms nb tail x pad : adj R terms -> nb <> 0 -> (nb - 1) * (BUCKET + 1) + 1 + tail <= length terms ->
    fc_write_buckets wrR wh nb tail (map term terms) [0] [0] [] [] = Ok x ->
    let '(ph, pb, hd, mb) := x in
    exists cur, get pb (nb - 1) = Ok cur /\ skipn cur (mb ++ pad) = encs wr (nth ((nb - 1) * (BUCKET + 1)) terms []) (firstn tail (skipn ((nb - 1) * (BUCKET + 1) + 1) terms)) ++ pad.
  Proof using Hwr Hwh.
    intros Hadj Hnb Hlen. rewrite (write_buckets_ok term R wrR wr wh Hwr Hwh) by (auto; right; lia).
    intros H. injection H as <-. set (cs := chunks nb tail terms). set (es := map (fun c => encs wr (List.hd [] c) (tl c)) cs).
    assert (Hcs : length cs = nb) by apply chunks_length.
    assert (Hes : length es = nb) by (subst es; rewrite map_length; exact Hcs).
    assert (Hsk : skipn ((nb - 1) * (BUCKET + 1)) terms = nth ((nb - 1) * (BUCKET + 1)) terms [] :: skipn ((nb - 1) * (BUCKET + 1) + 1) terms).
    { replace ((nb - 1) * (BUCKET + 1) + 1) with (1 + (nb - 1) * (BUCKET + 1)) by lia. rewrite <- skipn_skipn.
      assert (Hl : 0 < length (skipn ((nb - 1) * (BUCKET + 1)) terms)) by (rewrite skipn_length; lia).
      assert (E : nth 0 (skipn ((nb - 1) * (BUCKET + 1)) terms) [] = nth ((nb - 1) * (BUCKET + 1)) terms []) by (rewrite nth_skipn; f_equal; lia).
      destruct (skipn ((nb - 1) * (BUCKET + 1)) terms) as [|y l]; [cbn in Hl; lia|]. cbn in E. now rewrite <- E. }
    assert (Elast : nth_error es (nb - 1) = Some (encs wr (nth ((nb - 1) * (BUCKET + 1)) terms []) (firstn tail (skipn ((nb - 1) * (BUCKET + 1) + 1) terms)))).
    { unfold es, cs. rewrite nth_error_map, chunks_nth by lia. rewrite Nat.eqb_refl. cbn [option_map]. rewrite Hsk. reflexivity. }
    exists (length (concat (firstn (nb - 1) es))). split.
    - apply get_ok. change ([0] ++ psums (length (@nil N)) es) with (0 :: psums 0 es). now rewrite (psums_nth es 0 (nb - 1)) by lia.
    - cbn [app]. rewrite (concat_slice es (nb - 1) _ pad Elast). rewrite (skipn_all2 es) by lia. reflexivity.
  Qed.
End Last.

Section Ifc.
  Context {bucket : bucket_size}.
  Lemma ifc_extract_behind cs d id out : wf_completions cs -> ifc_build (map terminated cs) = Ok d -> length (stored cs) <= id -> 128 <= length out -> ifc_extract d id out = UB.
  Proof.
    intros W E Hid Hout. destruct (Nat.lt_ge_cases id (length cs)) as [Hlt|Hge]; [apply (ifc_extract_lost cs d); auto|].
    assert (Hn0 : length cs <> 0) by (destruct W as (_ & W & _); destruct cs; [congruence|discriminate]).
    destruct (Nat.lt_ge_cases (id / (BUCKET + 1)) (fc_num_buckets (length cs))) as [Hb|Hb]; [|apply (ifc_extract_beyond cs d); auto].
    assert (Hm : length cs mod (BUCKET + 1) <> 0) by (intros Hm; pose proof (buckets_beyond _ id Hn0 Hm Hge); lia).
    pose proof (num_buckets_total _ Hm) as Ht. pose proof (Nat.div_mod id (BUCKET + 1) ltac:(lia)) as Ei.
    assert (Eb : id / (BUCKET + 1) = fc_num_buckets (length cs) - 1).
    { pose proof (Nat.mod_upper_bound id (BUCKET + 1) ltac:(lia)). destruct (Nat.eq_dec (id / (BUCKET + 1)) (fc_num_buckets (length cs) - 1)) as [|Hne]; auto. exfalso.
      assert (Hq : id / (BUCKET + 1) + 1 <= fc_num_buckets (length cs) - 1) by lia.
      pose proof (Nat.mul_le_mono_r _ _ (BUCKET + 1) Hq). nia. }
    set (nb := fc_num_buckets (length cs)) in *.
    assert (Hk : fc_tail (length cs) < id mod (BUCKET + 1)) by (rewrite Eb in Ei; nia).
    destruct (ifc_build_layout cs W) as (d' & E' & L). rewrite E in E'. injection E' as <-.
    unfold ifc_build in E. rewrite map_length in E. fold nb in E.
    destruct (fc_write_buckets _ _ _ _ (map terminated cs) _ _ _ _) as [[[[ph pb] hd] mb]| | |] eqn:Ew; cbn [bind] in E; try discriminate. injection E as <-.
    assert (Hadj : adj ifc_rel cs) by (destruct W as (A & _ & B); now apply wf_completions_adj).
    destruct (last_bucket_bytes ifc_enc terminated ifc_rel ifc_write ifc_write_header ifc_write_ok ifc_write_header_ok cs nb (fc_tail (length cs)) _ (repeat 0%N (MAX_TERMS * 4)) Hadj ltac:(lia) ltac:(lia) Ew) as (cur & Ec & Hs).
    assert (Hg : Forall ifc_good cs) by now apply wf_completions_good, W.
    unfold ifc_extract, fc_extract_at. rewrite Eb. rewrite (lay_header _ _ _ _ L) by (fold nb; lia). cbn [bind fc_bkts fc_pb].
    pose proof (Forall_nth_d ifc_good cs ((nb - 1) * (BUCKET + 1)) [] Hg ltac:(lia)) as Hgh. pose proof (ifc_good_len _ Hgh) as Hlh. unfold MAX_TERMS in Hlh.
    rewrite blit_ok by lia. cbn [bind]. rewrite Ec. cbn [bind firstn app].
    refine (extract_loop_behind ifc_enc ifc_decode 4 MAX_TERMS (MAX_TERMS * 4) ifc_good ifc_good_len ifc_decode_ok ifc_decode_end mb ltac:(unfold MAX_TERMS; lia) _ _ _ _ _ _ 0 Hs _ Hgh _ _ _).
    - now apply Forall_sub.
    - rewrite firstn_length, skipn_length. lia.
    - rewrite app_length, skipn_length. unfold MAX_TERMS. lia.
    - cbn [skipn]. rewrite firstn_app, Nat.sub_diag, firstn_all. cbn. apply app_nil_r.
  Qed.
End Ifc.

Section Fc.
  Context {bucket : bucket_size}.
  Lemma fc_extract_behind terms d id out base : wf_vocab terms -> fc_build terms = Ok d -> length (stored terms) < id -> base + 256 <= length out -> fc_extract d id out base = UB.
  Proof.
    intros W E Hid Hout. destruct (Nat.le_gt_cases id (length terms)) as [Hlt|Hge]; [apply (fc_extract_lost terms d); auto|].
    destruct id as [|id]; [lia|]. assert (Hge' : length terms <= id) by lia. clear Hge Hid. rename Hge' into Hge.
    assert (Hn0 : length terms <> 0) by (destruct W as (_ & W & _); destruct terms; [congruence|discriminate]).
    destruct (fc_build_layout terms (proj1 (proj2 W))) as (d' & E' & L). rewrite E in E'. injection E' as <-.
    destruct (Nat.lt_ge_cases (id / (BUCKET + 1)) (fc_num_buckets (length terms))) as [Hb|Hb].
    2:{ unfold fc_extract, fc_extract_at, fc_header. pose proof (lay_buckets _ _ _ _ L) as Hc. unfold fc_buckets in Hc.
      destruct (get (fc_ph d) (id / (BUCKET + 1))) as [b| | |] eqn:Eb; try reflexivity; try (unfold get in Eb; destruct (nth_error _ _); discriminate).
      cbn [bind]. assert (En : get (fc_ph d) (id / (BUCKET + 1) + 1) = UB); [|now rewrite En].
      unfold get. assert (nth_error (fc_ph d) (id / (BUCKET + 1) + 1) = None) as ->; [|reflexivity]. apply nth_error_None. lia. }
    assert (Hm : length terms mod (BUCKET + 1) <> 0) by (intros Hm; pose proof (buckets_beyond _ id Hn0 Hm Hge); lia).
    pose proof (num_buckets_total _ Hm) as Ht. pose proof (Nat.div_mod id (BUCKET + 1) ltac:(lia)) as Ei.
    assert (Eb : id / (BUCKET + 1) = fc_num_buckets (length terms) - 1).
    { pose proof (Nat.mod_upper_bound id (BUCKET + 1) ltac:(lia)). destruct (Nat.eq_dec (id / (BUCKET + 1)) (fc_num_buckets (length terms) - 1)) as [|Hne]; auto. exfalso.
      assert (Hq : id / (BUCKET + 1) + 1 <= fc_num_buckets (length terms) - 1) by lia.
      pose proof (Nat.mul_le_mono_r _ _ (BUCKET + 1) Hq). nia. }
    set (nb := fc_num_buckets (length terms)) in *.
    assert (Hk : fc_tail (length terms) < id mod (BUCKET + 1)) by (rewrite Eb in Ei; nia).
    unfold fc_build in E. fold nb in E.
    destruct (fc_write_buckets _ _ _ _ terms _ _ _ _) as [[[[ph pb] hd] mb]| | |] eqn:Ew; cbn [bind] in E; try discriminate. injection E as <-.
    assert (Hadj : adj (fun _ _ => True) terms) by (clear; induction terms as [|x [|y l] IH]; cbn; auto).
    rewrite <- (map_id terms) in Ew at 2.
    destruct (last_bucket_bytes fc_write (fun s => s) (fun _ _ => True) (fun p s => Ok (fc_write p s)) (fun h => h) ltac:(auto) ltac:(auto) terms nb (fc_tail (length terms)) _ (repeat 0%N MAX_CHARS) Hadj ltac:(lia) ltac:(lia) Ew) as (cur & Ec & Hs).
    assert (Hg : Forall fc_good terms) by exact (wf_terms_good _ (proj2 (proj2 W))).
    unfold fc_extract, fc_extract_at. rewrite Eb. rewrite (lay_header _ _ _ _ L) by (fold nb; lia). cbn [bind fc_bkts fc_pb].
    pose proof (Forall_nth_d fc_good terms ((nb - 1) * (BUCKET + 1)) [] Hg ltac:(lia)) as Hgh. pose proof (fc_good_len _ Hgh) as Hlh. unfold MAX_CHARS in Hlh.
    rewrite blit_ok by lia. cbn [bind]. rewrite Ec. cbn [bind].
    refine (extract_loop_behind fc_write fc_decode 1 MAX_CHARS MAX_CHARS fc_good fc_good_len fc_decode_ok fc_decode_end mb ltac:(unfold MAX_CHARS; lia) _ _ _ _ _ _ base Hs _ Hgh _ _ _).
    - now apply Forall_sub.
    - rewrite firstn_length, skipn_length. lia.
    - rewrite !app_length, skipn_length, firstn_length. unfold MAX_CHARS. lia.
    - rewrite skipn_app. rewrite (skipn_all2 (firstn base out)) by (rewrite firstn_length; lia). rewrite firstn_length.
      replace (base - min base (length out)) with 0 by lia. cbn [app skipn]. rewrite firstn_app, Nat.sub_diag, firstn_all. cbn. apply app_nil_r.
  Qed.
End Fc.

(** ** benchmark_fc_dictionary.cpp *)
Lemma first_part_ok p q : (p <= 4)%N -> 0 < length q <= 128 -> first_part p q = Ok (part (N.to_nat p) q).
Proof.
  intros Hp Hq. unfold first_part, part. rewrite (rnd24_small (N.of_nat (length q))) by lia. rewrite rnd24_small by nia.
  replace (N.to_nat (N.of_nat (length q) * p / 4)) with (length q * N.to_nat p / 4).
  2:{ apply Nat2N.inj. rewrite N2Nat.id, Nat2N.inj_div, Nat2N.inj_mul, N2Nat.id. reflexivity. }
  assert (Hd : length q * N.to_nat p / 4 <= length q).
  { apply Nat.div_le_upper_bound; [lia|]. nia. }
  set (n := length q * N.to_nat p / 4) in *. rewrite slice_ok by (rewrite app_length; cbn [length]; destruct (n =? 0); lia). cbn [skipn].
  f_equal. rewrite firstn_app. replace ((if n =? 0 then 1 else n) - length q) with 0 by (destruct (n =? 0); lia). cbn [firstn]. rewrite app_nil_r.
  f_equal. destruct (Nat.eqb_spec n 0); lia.
Qed.
Lemma part_nonempty p q : 0 < length q -> part p q <> [].
Proof. intros H E. apply (f_equal (@length N)) in E. unfold part in E. rewrite firstn_length in E. cbn [length] in E. lia. Qed.

Section Perf.
  Context {bucket : bucket_size}.
  Variable terms : list (list N).
  Hypothesis W : wf_vocab terms.
  Variable queries : list (list N).
  Definition I256 (dec : list N) : Prop := length dec = 256.

  Lemma located d : fc_build terms = Ok d -> forall q dec, I256 dec -> exists r dec', fc_locate d q dec = Ok (r, dec') /\ I256 dec' /\
    ((exists i, r = Some (i + 1) /\ nth_error (stored terms) i = Some q) \/ (r = None /\ ~ In q (stored terms))).
  Proof using W.
    intros Ed q dec Hd. destruct (fc_locate_any terms W) as (d' & Ed' & L). rewrite Ed in Ed'. injection Ed' as <-.
    destruct (L q dec Hd) as (r & dec' & E & Hd' & Hr). exists r, dec'. split; [exact E|]. split; [exact Hd'|]. destruct r as [id|].
    - left. destruct (proj1 (Hr id) eq_refl) as (H1 & H2). exists (id - 1). split; [f_equal; lia|exact H2].
    - right. split; [reflexivity|]. intros H. apply In_nth_error in H as (i & Hi). specialize (Hr (i + 1)). replace (i + 1 - 1) with i in Hr by lia.
      destruct Hr as [_ Hr]. discriminate Hr. split; [lia|exact Hi].
  Qed.
  Lemma locate_runs d : fc_build terms = Ok d -> (forall q, In q queries -> In q (stored terms)) -> forall dec, I256 dec ->
    (exists runs dec', times RUNS (each (fc_locate d) queries) dec = Ok (runs, dec') /\ I256 dec' /\ five_runs (number_of (stored terms)) queries runs).
  Proof using W.
    intros Ed Hq dec Hd. destruct (times_ok (each (fc_locate d) queries) I256 (Forall2 (number_of (stored terms)) queries) RUNS) with (s := dec) as (ys & s' & E & H1 & H2 & H3); auto.
    - intros s Hs. destruct (each_ok (fc_locate d) I256 (number_of (stored terms)) queries) with (s := s) as (ys & s' & E & H1 & H2); eauto.
      intros q s0 Hin Hs0. destruct (located d Ed q s0 Hs0) as (r & dec' & E & Hd' & [Hr|(_ & Hr)]); [eauto 6|]. destruct (Hr (Hq q Hin)).
    - exists ys, s'. split; [exact E|]. split; [exact H1|]. split; auto.
  Qed.
  Lemma perf_ok d : fc_build terms = Ok d -> (forall q, In q queries -> In q (stored terms)) -> exists o, fc_perf_test d queries = Ok o /\ measured terms queries o.
  Proof using W.
    intros Ed Hq. unfold fc_perf_test.
    destruct (locate_runs d Ed Hq (repeat 0%N 256) (repeat_length _ _)) as (runs & dec & E1 & Hd & H1). rewrite E1. cbn [bind].
    destruct (each_ok (fc_locate d) I256 (number_of (stored terms)) queries) with (s := dec) as (ids & dec2 & E2 & _ & H2); auto.
    { intros q s0 Hin Hs0. destruct (located d Ed q s0 Hs0) as (r & dec' & E & Hd' & [Hr|(_ & Hr)]); [eauto 6|]. destruct (Hr (Hq q Hin)). }
    rewrite E2. cbn [bind].
    assert (H3 : exists runs out, times RUNS (each (fun id out => fc_extract d (id_value id) out 0) ids) (repeat 0%N 256) = Ok (runs, out) /\ five_runs (fun q n => n = length q) queries runs).
    { destruct (times_ok (each (fun id out => fc_extract d (id_value id) out 0) ids) I256 (Forall2 (fun q n => n = length q) queries) RUNS) with (s := repeat 0%N 256) as (ys & s' & E & _ & A & B); [|apply repeat_length|exists ys, s'; split; [exact E|split; assumption]].
      intros s Hs. destruct (each_ok (fun id out => fc_extract d (id_value id) out 0) I256 (fun id n => forall q, number_of (stored terms) q id -> n = length q) ids) with (s := s) as (ys & s' & E & A & B); auto.
      - intros id out Hin Hout. destruct (Forall2_In_r _ _ _ _ H2 Hin) as (q & _ & i & -> & Hi). cbn [id_value].
        destruct (fc_extract_any terms W) as (d' & Ed' & X & _). rewrite Ed in Ed'. injection Ed' as <-.
        destruct (X i q Hi out 0) as (out' & E & Hl & _); [unfold I256 in Hout; lia|]. exists (length q), out'. split; [exact E|]. split; [unfold I256 in *; lia|].
        intros q' (i' & Ei & Hi'). injection Ei as Ei. assert (i' = i) as -> by lia. congruence.
      - exists ys, s'. split; [exact E|]. split; [exact A|]. eapply Forall2_trans; [|exact H2|exact B]. cbn beta. intros a b c Hab Hbc. now apply Hbc. }
    destruct H3 as (lens & out & E3 & H3). rewrite E3. cbn [bind].
    set (I2 := fun bufs : list N * list N => I256 (fst bufs) /\ I256 (snd bufs)).
    set (body := fun p q (bufs : list N * list N) => do x <- first_part p q; do (r, dl, dr) <- fc_locate_prefix d x (fst bufs) (snd bufs); Ok (width r, (dl, dr))).
    destruct (each_ok (fun p => times RUNS (each (body p) queries)) I2 (fun p runs => five_runs (fun q x => range_width terms (part (N.to_nat p) q) x) queries runs) [0; 1; 2; 3; 4]%N)
      with (s := (repeat 0%N 256, repeat 0%N 256)) as (ranges & bufs & E4 & _ & H4).
    - intros p s Hp Hs. assert (Hp4 : (p <= 4)%N) by (cbn [In] in Hp; lia).
      destruct (times_ok (each (body p) queries) I2 (Forall2 (fun q x => range_width terms (part (N.to_nat p) q) x) queries) RUNS) with (s := s) as (ys & s' & E & A & B & C); auto.
      2:{ exists ys, s'. split; [exact E|]. split; [exact A|]. split; assumption. }
      intros s0 Hs0. destruct (each_ok (body p) I2 (fun q x => range_width terms (part (N.to_nat p) q) x) queries) with (s := s0) as (ys & s' & E & A & B); eauto.
      intros q [dl dr] Hin [Hdl Hdr]. cbn [fst snd] in Hdl, Hdr. unfold body.
      assert (Hlen : 0 < length q <= 128). { pose proof (Hq q Hin) as H. apply In_nth_error in H as (i & Hi). apply stored_nth_error in Hi. apply nth_error_In in Hi. destruct W as (_ & _ & Wt). rewrite Forall_forall in Wt. apply Wt, Hi. }
      rewrite first_part_ok by lia. cbn [bind fst snd].
      destruct (fc_locate_prefix_any terms W) as (d' & Ed' & X). rewrite Ed in Ed'. injection Ed' as <-.
      destruct (X (part (N.to_nat p) q) dl dr Hdl Hdr) as (r & dl' & dr' & E & H5 & H6 & _ & H7). rewrite E. cbn [bind]. exists (width r), (dl', dr'). split; [reflexivity|]. split; [split; assumption|].
      specialize (H7 (part_nonempty _ q (proj1 Hlen))). destruct r as [[a b]|]; cbn [width]; [left; eauto|right; auto].
    - split; apply repeat_length.
    - unfold body in E4. cbv beta in E4. rewrite E4. cbn [bind]. eexists. split; [reflexivity|]. split; [exact H1|]. split; [exact H3|]. cbn [fp_prefix].
      inversion H4 as [|p0 r0 ? l0 P0 T0]; subst. inversion T0 as [|p1 r1 ? l1 P1 T1]; subst. inversion T1 as [|p2 r2 ? l2 P2 T2]; subst. inversion T2 as [|p3 r3 ? l3 P3 T3]; subst. inversion T3 as [|p4 r4 ? l4 P4 T4]; subst. inversion T4; subst.
      constructor; [exact P0|]. constructor; [exact P1|]. constructor; [exact P2|]. constructor; [exact P3|]. constructor; [exact P4|]. constructor.
  Qed.
  Lemma perf_UB d : (N.of_nat (length terms) < 4294967295)%N -> fc_build terms = Ok d -> (exists q, In q queries /\ ~ In q (stored terms)) -> fc_perf_test d queries = UB.
  Proof using W.
    intros Hn Ed (q & Hq & Hnot). unfold fc_perf_test.
    destruct (times_ok (each (fc_locate d) queries) I256 (fun _ => True) RUNS) with (s := repeat 0%N 256) as (runs & dec & E1 & Hd & _); [|apply repeat_length|].
    { intros s Hs. destruct (each_ok (fc_locate d) I256 (fun _ _ => True) queries) with (s := s) as (ys & s' & E & H1 & H2); eauto.
      intros q0 s0 Hin Hs0. destruct (located d Ed q0 s0 Hs0) as (r & dec' & E & Hd' & _). eauto 6. }
    rewrite E1. cbn [bind].
    destruct (each_ok (fc_locate d) I256 (fun q r => (exists i, r = Some (i + 1) /\ nth_error (stored terms) i = Some q) \/ (r = None /\ ~ In q (stored terms))) queries) with (s := dec) as (ids & dec2 & E2 & _ & H2); auto.
    { intros q0 s0 Hin Hs0. destruct (located d Ed q0 s0 Hs0) as (r & dec' & E & Hd' & Hr). eauto 6. }
    rewrite E2. cbn [bind].
    assert (X : each (fun id out => fc_extract d (id_value id) out 0) ids (repeat 0%N 256) = UB); [|unfold RUNS; cbn [times]; now rewrite X].
    assert (Y : forall out, I256 out -> fc_extract d (id_value None) out 0 = UB).
    { intros out Hout. apply (fc_extract_behind terms); auto; [|unfold I256 in Hout; lia]. pose proof (stored_le terms). unfold id_value, INVALID_TERM_ID. lia. }
    apply (each_UB (fun id out => fc_extract d (id_value id) out 0) I256).
    - intros id out Hin Hout. destruct (Forall2_In_r _ _ _ _ H2 Hin) as (q0 & _ & [(i & -> & Hi)|(-> & _)]); [left|right; now apply Y].
      destruct (fc_extract_any terms W) as (d' & Ed' & X & _). rewrite Ed in Ed'. injection Ed' as <-. cbn [id_value].
      destruct (X i q0 Hi out 0) as (out' & E & Hl & _); [unfold I256 in Hout; lia|]. exists (length q0), out'. split; [exact E|unfold I256 in *; lia].
    - destruct (Forall2_In_l _ _ _ _ H2 Hq) as (id & Hid & [(i & _ & Hi)|(-> & _)]); [destruct Hnot; eapply nth_error_In; eauto|]. exists None. split; [exact Hid|exact Y].
    - apply repeat_length.
  Qed.
End Perf.

Lemma fold_collect qs : forall acc, fold_lines (fun q l => Ok (l ++ [q])) qs acc = Ok (acc ++ qs).
Proof. induction qs as [|q qs IH]; intros acc; cbn [fold_lines bind]; [now rewrite app_nil_r|]. rewrite IH, <- app_assoc. reflexivity. Qed.

(** ** benchmark_locate_prefix *)
Lemma trie_found cs docs ta : wf_completions cs -> length docs = length cs -> trie_build (num_levels cs) (records docs cs) = Ok ta ->
  forall t, trie_holds ta t -> forall prefix a b, Forall (fun x => (0 < x)%N) prefix -> (a <= b)%N ->
  exists r, trie_locate_prefix t prefix a b = Ok r /\ found_in_trie cs prefix a b r.
Proof.
  intros Hwf Hd Et t Ht prefix a b Hp Hab. rewrite trie_build_eq in Et by assumption. injection Et as <-. destruct Ht as (H1 & H2 & H3 & H4). cbn in H1, H2, H3, H4.
  set (L := num_levels cs) in *.
  assert (N1 : forall i, i < L -> exists nd, nth_error (tr_nodes t) i = Some nd /\ holds (vals cs i) nd).
  { intros i Hi. eapply Forall2_nth; [exact H1|]. now apply tab_nth. }
  assert (N0 : length (tr_nodes t) = L) by (rewrite <- (Forall2_len _ _ _ H1); apply tab_length).
  assert (N2 : forall i, i < L - 1 -> exists q, nth_error (tr_ptrs t) i = Some q /\ holds_nat (final_ptrs cs i) q).
  { intros i Hi. eapply Forall2_nth; [exact H2|]. now apply tab_nth. }
  assert (N3 : forall i, i < L -> exists q, nth_error (tr_left t) i = Some q /\ holds_nat (sub_index 0 (starts cs i)) q).
  { intros i Hi. eapply Forall2_nth; [exact H3|]. now rewrite tab_nth. }
  assert (N4 : forall i, i < L -> exists q, nth_error (tr_sizes t) i = Some q /\
    holds_nat (sums_of (starts cs i) (map pred (closes cs i)) 0) q).
  { intros i Hi. eapply Forall2_nth; [exact H4|]. now rewrite tab_nth. }
  exact (locate_ok cs Hwf t N1 N0 N2 N3 N4 prefix a b Hp Hab).
Qed.

Section Left.
  Variable terms : list (list N).
  Hypothesis W : wf_vocab terms.
  Variable d : fcd.
  Hypothesis Ed : fc_build terms = Ok d.
  Notation numbered := (fun t x => exists i, x = N.of_nat (i + 1) /\ nth_error (stored terms) i = Some t).

  Lemma left_loop_ok fuel : forall r prefix dec, I256 dec -> length r < fuel ->
    exists more suffix dec' ts last k, loop fuel (parse_left_step d) (r, prefix, dec) = Ok (prefix ++ more, suffix, dec') /\ I256 dec' /\
      query_split r ts last /\ Forall2 numbered (firstn k ts) more /\ ((k = length ts /\ suffix = last) \/ (nth_error ts k = Some suffix /\ ~ In suffix (stored terms))).
  Proof using W Ed.
    induction fuel as [|fuel IH]; intros r prefix dec HI Hf; [lia|]. cbn [loop]. unfold parse_left_step at 1.
    unfold bri_next. destruct (skip_spaces_spec r) as (k & Er & Hsp).
    destruct (take_token (skip_spaces r)) as [t rest] eqn:Et. destruct (take_token_spec _ _ _ Et) as (E1 & Hns & Hrest).
    unfold bri_has_next. rewrite negb_involutive. destruct (Nat.eqb_spec (length rest) 0) as [Hz|Hnz].
    - assert (rest = []) by (destruct rest; [reflexivity|discriminate]). subst rest.
      exists [], t, dec, [], t, 0. split; [now rewrite app_nil_r|]. split; [exact HI|]. split; [|split; [constructor|left; auto]].
      exists (repeat 32%N k). rewrite Er, E1, app_nil_r. repeat split; auto. pose proof (words_repeat k [] [] words_nil) as Hw. now rewrite app_nil_r in Hw.
    - destruct Hrest as [->|[rest' ->]]; [cbn in Hnz; lia|].
      assert (Htne : t <> []). { intros ->. cbn in E1. destruct Hsp as [Hsp|(x & r' & Hsp & Hx)]; rewrite Hsp in E1; congruence. }
      destruct (located terms W d Ed t dec HI) as (o & dec1 & El & HI1 & Ho). rewrite El. cbn [bind].
      assert (Hlen : length (32%N :: rest') < fuel). { rewrite Er, E1, !app_length in Hf. cbn [length] in *. destruct t; [congruence|]. cbn [length] in Hf. lia. }
      assert (Hsplit : forall ts last, query_split (32%N :: rest') ts last -> query_split r (t :: ts) last).
      { intros ts last (body & Eb & Hl & Hw). rewrite Er, E1. destruct body as [|y body]; cbn in Eb.
        - exfalso. subst last. inversion Hl; subst. congruence.
        - injection Eb as <- Eb. exists (repeat 32%N k ++ t ++ 32%N :: body).
          rewrite <- !app_assoc. cbn. rewrite Eb. split; [reflexivity|]. split; [assumption|].
          apply words_repeat. apply words_word; auto.
          inversion Hw as [|r0 ts0 Hw0 H1 H2|w r0 ts0 Hw1 Hw2 Hw3 H1 H2]; subst; [assumption|].
          exfalso. destruct w as [|c w]; [congruence|]. cbn in H1. injection H1 as -> _. inversion Hw2; subst; congruence. }
      destruct Ho as [(i & -> & Hi)|(-> & Hn)].
      + destruct (IH (32%N :: rest') (prefix ++ [N.of_nat (i + 1)]) dec1 HI1 Hlen) as (more & suffix & dec' & ts & last & k' & E & HI' & Hq & Hm & Hs).
        exists (N.of_nat (i + 1) :: more), suffix, dec', (t :: ts), last, (S k'). split; [etransitivity; [exact E|]; rewrite <- app_assoc; reflexivity|]. split; [exact HI'|].
        split; [now apply Hsplit|]. split; [cbn [firstn]; constructor; eauto|]. destruct Hs as [(-> & ->)|Hs]; [left; auto|right; exact Hs].
      + destruct (query_split_ex (32%N :: rest')) as (ts & last & Hq). exists [], t, dec1, (t :: ts), last, 0. split; [now rewrite app_nil_r|]. split; [exact HI1|].
        split; [now apply Hsplit|]. split; [constructor|]. right. split; [reflexivity|exact Hn].
  Qed.
  Lemma parse_left_ok q dec : I256 dec -> exists prefix suffix dec', parse_left d q dec = Ok (prefix, suffix, dec') /\ I256 dec' /\ looked_up (stored terms) q prefix suffix.
  Proof using W Ed.
    intros HI. unfold parse_left. destruct (left_loop_ok (length q + 2) q [] dec HI) as (prefix & suffix & dec' & ts & last & k & E & HI' & H1 & H2 & H3); [lia|].
    exists prefix, suffix, dec'. split; [exact E|]. split; [exact HI'|]. exists ts, last, k. auto.
  Qed.
  Definition wide (qr : list N * (N * N)) : Prop := (fst (snd qr) <= snd (snd qr))%N /\ (fst (snd qr) = snd (snd qr) \/ snd (snd qr) < 4294967296)%N /\ Forall (fun x => (0 < x)%N) (fst qr).
  Lemma prefix_queries_ok strings : (N.of_nat (length terms) < 4294967296)%N ->
    exists qs, prefix_queries d strings = Ok qs /\ Forall2 (fun q qr => asks terms q (fst qr) (fst (snd qr)) (snd (snd qr)) /\ wide qr) strings qs.
  Proof using W Ed.
    intros Hfew. unfold prefix_queries. destruct (fc_locate_prefix_any terms W) as (d' & Ed' & L). rewrite Ed in Ed'. injection Ed' as <-.
    match goal with |- exists qs, bind (each ?f _ _) _ = _ /\ Forall2 ?R _ _ =>
      destruct (each_ok f (fun s => I256 (fst (fst s)) /\ I256 (snd (fst s)) /\ I256 (snd s)) R strings) with (s := (repeat 0%N 256, repeat 0%N 256, repeat 0%N 256)) as (qs & s' & E & _ & H) end.
    - intros q ((dec, dl), dr) _ (H1 & H2 & H3). cbn [fst snd] in *. destruct (parse_left_ok q dec H1) as (prefix & suffix & dec' & E & H1' & Hp). rewrite E. cbn [bind].
      destruct (L suffix dl dr H2 H3) as (r & dl' & dr' & El & H2' & H3' & R1 & R2). rewrite El. cbn [bind].
      exists (prefix, bounds_of r), (dec', dl', dr'). split; [reflexivity|]. split; [auto|]. cbn [fst snd].
      assert (Hpos : Forall (fun x => (0 < x)%N) prefix).
      { destruct Hp as (ts & last & k & _ & Hp & _). clear -Hp. induction Hp as [|t x l1 l2 (i & -> & _) _ IH]; constructor; [lia|exact IH]. }
      pose proof (stored_le terms) as Hst.
      assert (Hne : 0 < length terms) by (destruct W as (_ & W' & _); destruct terms; [congruence|cbn [length]; lia]).
      destruct suffix as [|x suffix].
      + rewrite (R1 eq_refl). cbn [bounds_of fst snd]. split; [exists []; split; [exact Hp|]; left; auto|]. unfold wide. cbn [fst snd]. split; [lia|]. split; [right; lia|exact Hpos].
      + specialize (R2 ltac:(discriminate)). destruct r as [(a, b)|]; cbn [bounds_of fst snd].
        * split; [exists (x :: suffix); split; [exact Hp|]; right; left; split; [discriminate|]; exists a, b; auto|]. destruct R2 as ((Ha & Hb) & _).
          unfold wide. cbn [fst snd]. split; [lia|]. split; [right; lia|exact Hpos].
        * split; [exists (x :: suffix); split; [exact Hp|]; right; right; split; [discriminate|]; auto|]. unfold wide. cbn [fst snd]. split; [lia|]. split; [left; reflexivity|exact Hpos].
    - cbn [fst snd]. unfold I256. rewrite repeat_length. auto.
    - rewrite E. cbn [bind]. eauto.
  Qed.
End Left.

Lemma ifc_mod {B : bucket_size} d prefix a b dl dr : a = b ->
  ifc_locate_prefix d prefix a b dl dr = ifc_locate_prefix d prefix (a mod 4294967296) (b mod 4294967296) dl dr.
Proof. intros ->. unfold ifc_locate_prefix. now rewrite !N.mod_mod, !N.eqb_refl by discriminate. Qed.

(** The query as the next run finds it. *)
Definition grown (qr : list N * (N * N)) (r : option (nat * nat)) : list N * (N * N) :=
  (match r with None => if (fst (snd qr) =? snd (snd qr))%N then fst qr ++ [(fst (snd qr) mod 4294967296)%N] else fst qr | Some _ => fst qr end, snd qr).
Definition wide2 (qr : list N * (N * N)) : Prop := (fst (snd qr) <= snd (snd qr))%N /\ (fst (snd qr) = snd (snd qr) \/ snd (snd qr) < 4294967296)%N.

Section Runs.
  Variable cs : list (list N).
  Hypothesis W : wf_completions cs.
  Variable d : fcd.
  Hypothesis Ed : ifc_build (map terminated cs) = Ok d.
  Definition I128 (bufs : list N * list N) : Prop := length (fst bufs) = 128 /\ length (snd bufs) = 128.

  Lemma ifc_one qr bufs : wide2 qr -> I128 bufs -> exists r dl dr,
    ifc_locate_prefix d (fst qr) (fst (snd qr)) (snd (snd qr)) (fst bufs) (snd bufs) = Ok (r, fst (grown qr r), dl, dr) /\ I128 (dl, dr) /\
    found_in_dict cs (fst qr) (fst (snd qr)) (snd (snd qr)) r.
  Proof using W Ed.
    destruct qr as (prefix, (a, b)), bufs as (dl, dr). unfold wide2, I128, grown. cbn [fst snd]. intros (H1 & H2) (H3 & H4).
    destruct (ifc_locate_prefix_any cs W) as (d' & Ed' & L). rewrite Ed in Ed'. injection Ed' as <-.
    assert (E : ifc_locate_prefix d prefix a b dl dr = ifc_locate_prefix d prefix (a mod 4294967296) (b mod 4294967296) dl dr).
    { destruct H2 as [H2|H2]; [now apply ifc_mod|]. rewrite !N.mod_small by lia. reflexivity. }
    assert (Hm : (a mod 4294967296 <= b mod 4294967296 < 4294967296)%N).
    { split; [|now apply N.mod_lt]. destruct H2 as [->|H2]; [lia|]. rewrite !N.mod_small by lia. exact H1. }
    assert (Heq : (a =? b)%N = (a mod 4294967296 =? b mod 4294967296)%N).
    { destruct H2 as [->|H2]; [now rewrite !N.eqb_refl|]. rewrite !N.mod_small by lia. reflexivity. }
    destruct (L prefix _ _ dl dr Hm H3 H4) as (r & prefix' & dl' & dr' & El & L1 & L2 & P1 & P2 & Hr).
    exists r, dl', dr'. rewrite E, El. split; [|split; [auto|exact Hr]]. do 4 f_equal. rewrite Heq.
    destruct r as [xy|]; [apply P1; left; discriminate|]. destruct (N.eqb_spec (a mod 4294967296) (b mod 4294967296)) as [He|He]; auto.
  Qed.
  Lemma ifc_run_ok qs : Forall wide2 qs -> forall bufs, I128 bufs -> exists rs bufs',
    ifc_run d qs bufs = Ok (rs, map (fun x => grown (fst x) (snd x)) (combine qs rs), bufs') /\ I128 bufs' /\
    Forall2 (fun qr r => found_in_dict cs (fst qr) (fst (snd qr)) (snd (snd qr)) r) qs rs.
  Proof using W Ed.
    induction 1 as [|(prefix, (a, b)) qs Hq _ IH]; intros bufs Hb; [exists [], bufs; auto|]. cbn [ifc_run].
    destruct (ifc_one (prefix, (a, b)) bufs Hq Hb) as (r & dl & dr & E & Hb' & Hr). cbn [fst snd] in E, Hr. rewrite E. cbn [bind].
    destruct (IH (dl, dr) Hb') as (rs & bufs' & E2 & Hb2 & Hrs). rewrite E2. cbn [bind]. exists (r :: rs), bufs'. split; [reflexivity|]. split; [exact Hb2|]. constructor; auto.
  Qed.
  Lemma grown_wide qs rs : Forall wide2 qs -> Forall wide2 (map (fun x => grown (fst x) (snd x)) (combine qs rs)).
  Proof using. intros H. revert rs. induction H as [|q qs Hq _ IH]; intros [|r rs]; cbn [combine map]; constructor; auto. Qed.

  Lemma ifc_times n : forall qs bufs, Forall wide2 qs -> I128 bufs -> exists runs s',
    times n (fun s => do (rs, qs, bufs) <- ifc_run d (fst s) (snd s); Ok (rs, (qs, bufs))) (qs, bufs) = Ok (runs, s') /\ length runs = n /\
    Forall (fun run => length run = length qs) runs /\
    forall j qr, nth_error qs j = Some qr -> searches (found_in_dict cs) (fst (snd qr)) (snd (snd qr)) (fst qr) (column j runs).
  Proof using W Ed.
    induction n as [|n IH]; intros qs bufs Hq Hb; [exists [], (qs, bufs); repeat split; auto; intros; constructor|]. cbn [times fst snd].
    destruct (ifc_run_ok qs Hq bufs Hb) as (rs & bufs1 & E & Hb1 & Hrs). rewrite E. cbn [bind].
    destruct (IH _ bufs1 (grown_wide qs rs Hq) Hb1) as (runs & s' & E2 & Hl & Hc & Hs). rewrite E2. cbn [bind]. exists (rs :: runs), s'. split; [reflexivity|]. split; [cbn [length]; now rewrite Hl|].
    pose proof (Forall2_len _ _ _ Hrs) as Hlen. split.
    - constructor; [now rewrite Hlen|]. eapply Forall_impl; [|exact Hc]. cbn. intros run ->. rewrite map_length, combine_length. lia.
    - intros j qr Hj. cbn [column map]. fold (column j runs). assert (Hjl : j < length qs) by (apply nth_error_Some; congruence).
      destruct (nth_error rs j) as [r|] eqn:Er; [|apply nth_error_None in Er; lia]. rewrite (nth_error_nth _ _ None Er).
      assert (Hf : found_in_dict cs (fst qr) (fst (snd qr)) (snd (snd qr)) r).
      { clear -Hrs Hj Er. revert j Hj Er. induction Hrs as [|? ? ? ? H0 _ IH]; intros [|j] Hj Er; cbn in Hj, Er; try discriminate; [injection Hj as <-; injection Er as <-; exact H0|eauto]. }
      constructor; [exact Hf|]. specialize (Hs j (grown qr r)).
      assert (Hn : nth_error (map (fun x => grown (fst x) (snd x)) (combine qs rs)) j = Some (grown qr r)).
      { clear -Hj Er. revert rs j Hj Er. induction qs as [|q qs IH]; intros [|r' rs] [|j] Hj Er; cbn in *; try discriminate; [congruence|auto]. }
      exact (Hs Hn).
  Qed.
End Runs.

Section Programs.
  Variable c : collection.
  Hypothesis Hwf : wf_collection c.
  Variable t : texts.
  Hypothesis Ht : holds_collection c t.

  Lemma bench_fc_eq n ls input : has_lines ls input ->
    bench_fc n t input = map_res (fun bucket => do d <- @fc_build bucket (terms c); @fc_perf_test bucket d (firstn n ls)) bench_sizes.
  Proof using Hwf Ht.
    intros Hl. unfold bench_fc. destruct (load_coll c Hwf t Ht) as (p & E & Ep & _). rewrite E. cbn [bind]. rewrite Ep, Nat2N.id.
    rewrite (each_line_ok _ n ls input _ _ Hl), fold_collect. cbn [bind app].
    destruct (read_words_ok (terms c) (open_file (t_dict t)) [] (before_open _ _ (hc_dict _ _ Ht))) as (st & Er & _). rewrite Er. reflexivity.
  Qed.
  Lemma bench_fc_ok n ls input : has_lines ls input ->
    (forall B, In B bench_sizes -> forall q, In q (firstn n ls) -> In q (@stored B _ (terms c))) ->
    exists os, bench_fc n t input = Ok os /\ Forall2 (fun B o => @measured B (terms c) (firstn n ls) o) bench_sizes os.
  Proof using Hwf Ht.
    intros Hl Hq. rewrite (bench_fc_eq n ls input Hl). apply map_res_all. intros B HB.
    destruct (@fc_build_layout B (terms c) (proj1 (proj2 (wf_terms c Hwf)))) as (d & Ed & _). rewrite Ed. cbn [bind]. apply perf_ok; auto. apply wf_terms, Hwf.
  Qed.
  Lemma bench_fc_UB n ls input B q : has_lines ls input -> In B bench_sizes -> In q (firstn n ls) -> ~ In q (@stored B _ (terms c)) -> bench_fc n t input = UB.
  Proof using Hwf Ht.
    intros Hl HB Hq Hn. rewrite (bench_fc_eq n ls input Hl).
    assert (Hfew : (N.of_nat (length (terms c)) < 4294967295)%N) by (pose proof (proj2 (wf_few c Hwf)); lia).
    apply map_res_UB.
    - intros B' _. destruct (@fc_build_layout B' (terms c) (proj1 (proj2 (wf_terms c Hwf)))) as (d & Ed & _). rewrite Ed. cbn [bind].
      destruct (Forall_Exists_dec (fun q => In q (@stored B' _ (terms c))) (fun q => in_dec (list_eq_dec N.eq_dec) q _) (firstn n ls)) as [H|H].
      + left. rewrite Forall_forall in H. destruct (@perf_ok B' (terms c) (wf_terms c Hwf) (firstn n ls) d Ed H) as (o & E & _). eauto.
      + right. apply (@perf_UB B' (terms c) (wf_terms c Hwf)); auto. rewrite Exists_exists in H. exact H.
    - exists B. split; [exact HB|]. destruct (@fc_build_layout B (terms c) (proj1 (proj2 (wf_terms c Hwf)))) as (d & Ed & _). rewrite Ed. cbn [bind].
      apply (@perf_UB B (terms c) (wf_terms c Hwf)); eauto.
  Qed.

  Lemma load_full : exists p, M_Input.load (t_stats t) = Ok p /\ pa_terms p = N.of_nat (length (terms c)) /\ pa_comps p = N.of_nat (length (comps c)) /\
    pa_universe p = N.of_nat (universe c) /\ pa_levels p = N.of_nat (num_levels (comps c)).
  Proof using Hwf Ht.
    destruct Ht as [(len & nodes & S1 & S2 & S3 & S4) Hd Hm Hi Hfw]. pose proof (levels_le c Hwf) as HL. pose proof (wf_universe c Hwf) as HU.
    destruct (wf_few c Hwf) as (Hc & Hn).
    rewrite (fun A B C D E => load_ok _ _ _ _ _ nodes _ A B C D E S4); [|repeat constructor; unfold small32; lia|exact S3|exact S1|lia|now rewrite S2].
    eexists. repeat split.
  Qed.
  Lemma read_comps fuel junk : length (t_mapped t) < fuel ->
    exists e, read_mapped_n fuel (length (comps c)) junk (t_mapped t) = Ok (map terminate (combine (map N.of_nat (docs c)) (comps c)), e).
  Proof using Hwf Ht.
    intros Hf. replace (length (comps c)) with (length (combine (map N.of_nat (docs c)) (comps c))) by (rewrite combine_length, map_length, (wf_docs_len c Hwf); lia).
    destruct (read_mapped_n_ok _ fuel junk _ (coll_records_valid c Hwf) (hc_mapped _ _ Ht) Hf) as (e & E & _). eauto.
  Qed.
  Lemma recs_comps : map snd (map terminate (combine (map N.of_nat (docs c)) (comps c))) = map terminated (comps c).
  Proof using Hwf.
    rewrite map_map. pose proof (wf_docs_len c Hwf) as Hl. revert Hl. generalize (comps c). induction (docs c) as [|d ds IH]; intros [|x cs] Hl; try discriminate; [reflexivity|].
    cbn [map combine]. f_equal. apply IH. now injection Hl.
  Qed.
  Lemma recs_docs : map (fun r => N.to_nat (fst r)) (map terminate (combine (map N.of_nat (docs c)) (comps c))) = docs c.
  Proof using Hwf.
    rewrite map_map. pose proof (wf_docs_len c Hwf) as Hl. revert Hl. generalize (comps c). induction (docs c) as [|d ds IH]; intros [|x cs] Hl; try discriminate; [reflexivity|].
    cbn [map combine terminate fst]. f_equal; [apply Nat2N.id|]. apply IH. now injection Hl.
  Qed.

  (** *** benchmark_integer_fc_dictionary *)
  Lemma bench_ifc_eq shuffle fuel n junk : length (t_mapped t) < fuel ->
    bench_ifc shuffle fuel n junk t = map_res (fun bucket => do d <- @ifc_build bucket (map terminated (comps c)); @ifc_perf_test bucket d (shuffle (seq 0 n))) bench_sizes.
  Proof using Hwf Ht.
    intros Hf. unfold bench_ifc. destruct load_full as (p & E & _ & Ec & Eu & _). rewrite E. cbn [bind]. rewrite Ec, Eu, !Nat2N.id.
    destruct (read_comps fuel junk Hf) as (e & Er).
    enough (H : forall l, map_res (fun bucket => do (recs, _) <- read_mapped_n fuel (length (comps c)) junk (t_mapped t); do d <- @ifc_build bucket (map snd recs);
      do _ <- @ifc_docid_to_lexid bucket (universe c) (map (fun r => N.to_nat (fst r)) recs); @ifc_perf_test bucket d (shuffle (seq 0 n))) l =
      map_res (fun bucket => do d <- @ifc_build bucket (map terminated (comps c)); @ifc_perf_test bucket d (shuffle (seq 0 n))) l) by apply H.
    induction l as [|B l IH]; [reflexivity|]. cbn [map_res]. rewrite IH. rewrite Er. cbn [bind]. rewrite recs_comps, recs_docs.
    destruct (@docid_to_lexid_any B (universe c) (docs c)) as (m & Em & _); [apply (wf_docs_nodup c Hwf)|apply Forall_forall, (wf_docs_lt c Hwf)|].
    rewrite Em. destruct (ifc_build (map terminated (comps c))); reflexivity.
  Qed.
  Lemma ifc_perf_ok (B : bucket_size) ids d : ifc_build (map terminated (comps c)) = Ok d -> (forall i, In i ids -> i < length (stored (comps c))) ->
    exists runs, ifc_perf_test d ids = Ok runs /\ five_runs (fun i l => exists x, nth_error (comps c) i = Some x /\ l = length x) ids runs.
  Proof using Hwf.
    intros Ed Hi. unfold ifc_perf_test. destruct (ifc_extract_any (comps c) (wf_comps c Hwf)) as (d' & Ed' & X & _). rewrite Ed in Ed'. injection Ed' as <-.
    destruct (times_ok (each (ifc_extract d) ids) I256 (Forall2 (fun i l => exists x, nth_error (comps c) i = Some x /\ l = length x) ids) RUNS) with (s := repeat 0%N 256)
      as (runs & s' & E & _ & Hl & Hr); [|apply repeat_length|].
    - intros s Hs. apply each_ok; [|exact Hs]. intros i out Hin Hout. destruct (nth_error (stored (comps c)) i) as [x|] eqn:Ex.
      2:{ apply nth_error_None in Ex. pose proof (Hi i Hin). lia. }
      destruct (X i x Ex out) as (out' & E & Hl & _); [unfold I256 in Hout; lia|]. exists (length x), out'. split; [exact E|]. split; [unfold I256 in *; lia|].
      exists x. split; [|reflexivity]. unfold stored in Ex. destruct (length (comps c) mod (BUCKET + 1) =? 0); [|exact Ex].
      rewrite <- (firstn_skipn (length (comps c) - BUCKET) (comps c)). rewrite nth_error_app1; [exact Ex|]. apply nth_error_Some. congruence.
    - rewrite E. cbn [bind]. exists runs. split; [reflexivity|]. split; auto.
  Qed.
  Lemma ifc_perf_UB (B : bucket_size) ids d : ifc_build (map terminated (comps c)) = Ok d -> (exists i, In i ids /\ length (stored (comps c)) <= i) ->
    ifc_perf_test d ids = UB.
  Proof using Hwf.
    intros Ed (i & Hi & Hge). unfold ifc_perf_test, RUNS. destruct (ifc_extract_any (comps c) (wf_comps c Hwf)) as (d' & Ed' & X & _). rewrite Ed in Ed'. injection Ed' as <-.
    cbn [times]. rewrite (each_UB (ifc_extract d) I256); [reflexivity| |exists i; split; [exact Hi|]|apply repeat_length].
    - intros j out Hin Hout. destruct (nth_error (stored (comps c)) j) as [x|] eqn:Ex.
      + left. destruct (X j x Ex out) as (out' & E & Hl & _); [unfold I256 in Hout; lia|]. exists (length x), out'. split; [exact E|unfold I256 in *; lia].
      + right. apply nth_error_None in Ex. apply (ifc_extract_behind (comps c)); auto; [apply (wf_comps c Hwf)|unfold I256 in Hout; lia].
    - intros out Hout. apply (ifc_extract_behind (comps c)); auto; [apply (wf_comps c Hwf)|unfold I256 in Hout; lia].
  Qed.
  Lemma bench_ifc_ok shuffle fuel n junk : length (t_mapped t) < fuel -> Permutation (shuffle (seq 0 n)) (seq 0 n) ->
    (forall B, In B bench_sizes -> n <= length (@stored B _ (comps c))) ->
    exists os, bench_ifc shuffle fuel n junk t = Ok os /\
      Forall (five_runs (fun i l => exists x, nth_error (comps c) i = Some x /\ l = length x) (shuffle (seq 0 n))) os /\ length os = length bench_sizes.
  Proof using Hwf Ht.
    intros Hf Hp Hn. rewrite bench_ifc_eq by exact Hf.
    destruct (map_res_all (fun bucket => do d <- @ifc_build bucket (map terminated (comps c)); @ifc_perf_test bucket d (shuffle (seq 0 n)))
      (fun _ => five_runs (fun i l => exists x, nth_error (comps c) i = Some x /\ l = length x) (shuffle (seq 0 n))) bench_sizes) as (os & E & H).
    - intros B HB. destruct (@ifc_extract_any B (comps c) (wf_comps c Hwf)) as (d & Ed & _). rewrite Ed. cbn [bind]. apply ifc_perf_ok; [exact Ed|].
      intros i Hi. apply (Permutation_in _ Hp), in_seq in Hi. specialize (Hn B HB). lia.
    - exists os. split; [exact E|]. clear E. split; [|now rewrite (Forall2_len _ _ _ H)]. clear -H. induction H as [|B o l1 l2 H0 _ IH]; constructor; [exact H0|exact IH].
  Qed.
  Lemma bench_ifc_UB shuffle fuel n junk B : length (t_mapped t) < fuel -> Permutation (shuffle (seq 0 n)) (seq 0 n) -> In B bench_sizes ->
    length (@stored B _ (comps c)) < n -> bench_ifc shuffle fuel n junk t = UB.
  Proof using Hwf Ht.
    intros Hf Hp HB Hn. rewrite bench_ifc_eq by exact Hf.
    assert (Y : forall B0, length (@stored B0 _ (comps c)) < n -> exists i, In i (shuffle (seq 0 n)) /\ length (@stored B0 _ (comps c)) <= i).
    { intros B0 H0. exists (length (@stored B0 _ (comps c))). split; [|lia]. apply (Permutation_in _ (Permutation_sym Hp)), in_seq. lia. }
    apply map_res_UB.
    - intros B' _. destruct (@ifc_extract_any B' (comps c) (wf_comps c Hwf)) as (d & Ed & _). rewrite Ed. cbn [bind].
      destruct (Nat.lt_ge_cases (length (@stored B' _ (comps c))) n) as [H|H].
      + right. apply ifc_perf_UB; auto.
      + left. destruct (ifc_perf_ok B' (shuffle (seq 0 n)) d Ed) as (o & E & _); [|eauto]. intros i Hi. apply (Permutation_in _ Hp), in_seq in Hi. lia.
    - exists B. split; [exact HB|]. destruct (@ifc_extract_any B (comps c) (wf_comps c Hwf)) as (d & Ed & _). rewrite Ed. cbn [bind]. apply ifc_perf_UB; auto.
  Qed.

  (** *** benchmark_locate_prefix *)
  Variable K : containers.
  Hypothesis HK : containers_ok K.
  Lemma bench_prefix_eq trie fuel n m e junk ls input : (m <= 2 ^ e)%N -> has_lines ls input ->
    Forall (fun q => q <> [] /\ (N.of_nat (length q) + 2 < 16777216)%N) (firstn n ls) -> length (t_mapped t) < fuel ->
    exists strings qs, Forall2 (shortened m e) (firstn n ls) strings /\
      Forall2 (fun q qr => asks (terms c) q (fst qr) (fst (snd qr)) (snd (snd qr)) /\ wide qr) strings qs /\
      bench_prefix K trie fuel n m e junk t input =
        (if trie then do ta <- trie_build (num_levels (comps c)) (records (docs c) (comps c)); do x <- trie_store K ta; trie_runs x qs
         else do x <- ifc_build (map terminated (comps c)); ifc_runs x qs).
  Proof using Hwf Ht.
    intros Hm Hl Hq Hf. unfold bench_prefix. destruct load_full as (p & E & Et & Ec & Eu & El). rewrite E. cbn [bind]. rewrite Et, Ec, Eu, El, !Nat2N.id.
    destruct (read_words_ok (terms c) (open_file (t_dict t)) [] (before_open _ _ (hc_dict _ _ Ht))) as (st & Er & _). rewrite Er. cbn [snd].
    destruct (fc_locate_any (terms c) (wf_terms c Hwf)) as (d & Ed & _). rewrite Ed. cbn [bind].
    destruct (load_queries_ok m e n input ls Hm Hl Hq) as (strings & Es & Hs). rewrite Es. cbn [bind].
    destruct (prefix_queries_ok (terms c) (wf_terms c Hwf) d Ed strings) as (qs & Eq & Hqs); [pose proof (proj2 (wf_few c Hwf)); lia|]. rewrite Eq. cbn [bind].
    exists strings, qs. split; [exact Hs|]. split; [exact Hqs|]. destruct trie.
    - destruct (read_mapped_ok _ fuel junk _ (coll_records_valid c Hwf) (hc_mapped _ _ Ht) Hf) as (e' & E' & _). rewrite E'. cbn [bind]. now rewrite coll_records.
    - destruct (read_comps fuel junk Hf) as (e' & E'). rewrite E'. cbn [bind]. rewrite recs_comps, recs_docs.
      destruct (docid_to_lexid_any (universe c) (docs c)) as (l & Em & _); [apply (wf_docs_nodup c Hwf)|apply Forall_forall, (wf_docs_lt c Hwf)|].
      rewrite Em. destruct (ifc_build (map terminated (comps c))); reflexivity.
  Qed.
  Lemma bench_prefix_fc fuel n m e junk ls input : (m <= 2 ^ e)%N -> has_lines ls input ->
    Forall (fun q => q <> [] /\ (N.of_nat (length q) + 2 < 16777216)%N) (firstn n ls) -> length (t_mapped t) < fuel ->
    exists strings runs, Forall2 (shortened m e) (firstn n ls) strings /\ bench_prefix K false fuel n m e junk t input = Ok runs /\
      length runs = 5 /\ Forall (fun run => length run = length strings) runs /\
      forall j q, nth_error strings j = Some q -> exists prefix a b, asks (terms c) q prefix a b /\ searches (found_in_dict (comps c)) a b prefix (column j runs).
  Proof using Hwf Ht.
    intros Hm Hl Hq Hf. destruct (bench_prefix_eq false fuel n m e junk ls input Hm Hl Hq Hf) as (strings & qs & Hs & Hqs & E).
    destruct (ifc_locate_prefix_any (comps c) (wf_comps c Hwf)) as (x & Ex & _). rewrite Ex in E. cbn [bind] in E. unfold ifc_runs in E.
    destruct (ifc_times (comps c) (wf_comps c Hwf) x Ex RUNS qs (repeat 0%N 128, repeat 0%N 128)) as (runs & s' & Er & H1 & H2 & H3).
    { clear -Hqs. induction Hqs as [|q qr l1 l2 (_ & Hw & Hw2 & _) _ IH]; constructor; [split; assumption|exact IH]. }
    { split; apply repeat_length. }
    rewrite Er in E. cbn [bind] in E. exists strings, runs. split; [exact Hs|]. split; [exact E|]. split; [exact H1|]. split; [now rewrite (Forall2_len _ _ _ Hqs)|].
    intros j q Hj. destruct (nth_error qs j) as [qr|] eqn:Eq.
    2:{ apply nth_error_None in Eq. rewrite <- (Forall2_len _ _ _ Hqs) in Eq. assert (j < length strings) by (apply nth_error_Some; congruence). lia. }
    exists (fst qr), (fst (snd qr)), (snd (snd qr)). split; [|exact (H3 j qr Eq)].
    clear -Hqs Hj Eq. revert j Hj Eq. induction Hqs as [|? ? ? ? (H0 & _) _ IH]; intros [|j] Hj Er; cbn in Hj, Er; try discriminate; [injection Hj as <-; injection Er as <-; exact H0|eauto].
  Qed.
  Lemma bench_prefix_trie fuel n m e junk ls input : (m <= 2 ^ e)%N -> has_lines ls input ->
    Forall (fun q => q <> [] /\ (N.of_nat (length q) + 2 < 16777216)%N) (firstn n ls) -> length (t_mapped t) < fuel ->
    exists strings runs, Forall2 (shortened m e) (firstn n ls) strings /\ bench_prefix K true fuel n m e junk t input = Ok runs /\
      five_runs (fun q r => exists prefix a b, asks (terms c) q prefix a b /\ found_in_trie (comps c) prefix a b r) strings runs.
  Proof using Hwf Ht HK.
    intros Hm Hl Hq Hf. destruct (bench_prefix_eq true fuel n m e junk ls input Hm Hl Hq Hf) as (strings & qs & Hs & Hqs & E).
    destruct (trie_spec (comps c) (docs c) (wf_comps c Hwf) (wf_docs_len c Hwf)) as (ta & Et & _ & Hmono & _).
    assert (Hfit : trie_fits ta).
    { rewrite (trie_build_eq (comps c) (wf_comps c Hwf) (docs c) (wf_docs_len c Hwf)) in Et. injection Et as <-.
      apply trie_fits_ok; [apply (wf_comps c Hwf)|]. pose proof (P_Collection.n_le_universe c Hwf). pose proof (wf_universe c Hwf). lia. }
    destruct (trie_store_ok K HK ta Hmono Hfit) as (x & Es & Hx). rewrite Et in E. cbn [bind] in E. rewrite Es in E. cbn [bind] in E. unfold trie_runs in E.
    match type of E with _ = bind (times RUNS ?f tt) _ =>
      destruct (times_ok f (fun _ => True) (Forall2 (fun q r => exists prefix a b, asks (terms c) q prefix a b /\ found_in_trie (comps c) prefix a b r) strings) RUNS) with (s := tt) as (runs & s' & Er & _ & H1 & H2) end; [|exact I|].
    - intros s _. destruct (map_res_all (fun q => trie_locate_prefix x (fst q) (fst (snd q)) (snd (snd q)))
        (fun qr r => found_in_trie (comps c) (fst qr) (fst (snd qr)) (snd (snd qr)) r) qs) as (rs & Er & Hr).
      { intros qr Hin. destruct (Forall2_In_r _ _ _ _ Hqs Hin) as (q & _ & _ & Hw & _ & Hp). exact (trie_found (comps c) (docs c) ta (wf_comps c Hwf) (wf_docs_len c Hwf) Et x Hx _ _ _ Hp Hw). }
      rewrite Er. cbn [bind]. exists rs, s. split; [reflexivity|]. split; [exact I|]. refine (Forall2_trans _ _ _ _ _ _ _ Hqs Hr). intros q qr r (Ha & _) Hfound. eauto.
    - rewrite Er in E. cbn [bind] in E. exists strings, runs. split; [exact Hs|]. split; [exact E|]. split; assumption.
  Qed.
End Programs.
