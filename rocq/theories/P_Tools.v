(** Proofs about the programs around the index. *)
From Coq Require Import Sorted.
From Verif Require Import Base S_Order S_Parse S_Text S_Vocab S_Completions S_Trie S_Collection S_Files S_Tools.
From Verif Require Import M_Parse M_Fc M_Auto M_Input M_Prep M_Save M_Tools P_Parse P_ParseFc P_Collection P_Kept P_Input P_Files P_PrepText.
Local Open Scope nat_scope.

(** ** Lines *)
Lemma span_line_last l : one_line l -> span_line l = (l, None).
Proof.
  induction 1 as [|b l Hb _ IH]; [reflexivity|]. cbn [span_line]. destruct (N.eqb_spec b 10); [congruence|]. now rewrite IH.
Qed.
Lemma span_line_next l text : one_line l -> span_line (l ++ 10%N :: text) = (l, Some text).
Proof.
  induction 1 as [|b l Hb _ IH]; [reflexivity|]. cbn [app span_line]. destruct (N.eqb_spec b 10); [congruence|]. now rewrite IH.
Qed.
Fixpoint fold_lines {A} (body : list N -> A -> res A) (ls : list (list N)) (a : A) : res A :=
  match ls with [] => Ok a | l :: ls => do a <- body l a; fold_lines body ls a end.
Lemma each_line_ok {A} (body : list N -> A -> res A) n : forall ls text old a, has_lines ls text ->
  each_line body n (open_file text) old a = fold_lines body (firstn n ls) a.
Proof.
  induction n as [|n IH]; intros ls text old a H; [reflexivity|]. cbn [each_line]. unfold getline, good, open_file. cbn [st_eof st_fail st_rest negb andb].
  destruct H as [|l Hne Hl|l ls text Hl H].
  - reflexivity.
  - destruct l as [|b l]; [congruence|]. rewrite (span_line_last _ Hl). cbn [st_fail firstn fold_lines].
    destruct (body (b :: l) a) as [a'| | |]; cbn [bind]; try reflexivity. destruct n; reflexivity.
  - assert (E : span_line (l ++ 10%N :: text) = (l, Some text)) by now apply span_line_next.
    destruct (l ++ 10%N :: text) as [|b r] eqn:Ebr; [now destruct l|]. rewrite E. cbn [st_fail firstn fold_lines].
    destruct (body l a) as [a'| | |]; cbn [bind]; try reflexivity. apply IH. exact H.
Qed.

(** ** src/map_queries.cpp *)
Definition num (terms : list (list N)) (t : list N) : N :=
  match pos_of terms t with Some i => (N.of_nat i - 1)%N | None => 4294967294%N end.
Lemma num_number terms t : number terms t (num terms t).
Proof.
  unfold number, num. destruct (pos_of terms t) as [i|] eqn:E.
  - left. destruct (pos_of_some _ _ _ E) as (Hi & Hn). replace (N.to_nat (N.of_nat i - 1)) with (i - 1) by lia. exact Hn.
  - right. split; [now apply pos_of_none|reflexivity].
Qed.
Section Map.
  Variable d : fcd.
  Variable ws : list (list N).
  Hypothesis locate_ok : forall t dec, length dec = 256 -> exists dec', fc_locate d t dec = Ok (pos_of ws t, dec') /\ length dec' = 256.
  Lemma map_terms_ok fuel : forall r dec acc, r <> [] -> length dec = 256 -> length r < fuel ->
    exists dec' ts last, length dec' = 256 /\ query_split r ts last /\ map_terms fuel d r dec acc = Ok (acc ++ map (num ws) (ts ++ [last]), dec').
  Proof.
    induction fuel as [|fuel IH]; intros r dec acc Hr HI Hf; [lia|].
    cbn [map_terms]. unfold bri_has_next at 1. destruct (Nat.eqb_spec (length r) 0) as [Hz|_]; [destruct r; [congruence|discriminate]|]. cbn [negb].
    unfold bri_next. destruct (skip_spaces_spec r) as (k & Er & Hsp).
    destruct (take_token (M_Parse.skip_spaces r)) as [t rest] eqn:Et. destruct (take_token_spec _ _ _ Et) as (E1 & Hns & Hrest).
    destruct (locate_ok t dec HI) as (dec1 & El & HI1). rewrite El. cbn [bind]. fold (num ws t).
    destruct Hrest as [->|[rest' ->]].
    - exists dec1, [], t. split; [exact HI1|]. split.
      + exists (repeat 32%N k). rewrite Er, E1, app_nil_r. repeat split; auto.
        pose proof (words_repeat k [] [] words_nil) as Hw. now rewrite app_nil_r in Hw.
      + destruct fuel; [destruct r; [congruence|cbn [length] in Hf; lia]|reflexivity].
    - assert (Htne : t <> []).
      { intros ->. cbn in E1. destruct Hsp as [Hsp|(x & r' & Hsp & Hx)]; rewrite Hsp in E1; congruence. }
      assert (Hlen : length (32%N :: rest') < fuel).
      { rewrite Er, E1, !app_length in Hf. cbn [length] in *. destruct t; [congruence|]. cbn [length] in Hf. lia. }
      destruct (IH (32%N :: rest') dec1 (acc ++ [num ws t]) ltac:(discriminate) HI1 Hlen) as (dec' & ts & last & HI' & (body & Eb & Hl & Hw) & E).
      exists dec', (t :: ts), last. split; [exact HI'|]. split.
      + rewrite Er, E1. destruct body as [|y body]; cbn in Eb.
        * exfalso. subst last. inversion Hl; subst. congruence.
        * injection Eb as <- Eb. exists (repeat 32%N k ++ t ++ 32%N :: body).
          rewrite <- !app_assoc. cbn. rewrite Eb. split; [reflexivity|]. split; [assumption|].
          apply words_repeat. apply words_word; auto.
          inversion Hw as [|r0 ts0 Hw0 H1 H2|w r0 ts0 Hw1 Hw2 Hw3 H1 H2]; subst; [assumption|].
          exfalso. destruct w as [|c w]; [congruence|]. cbn in H1. injection H1 as -> _. inversion Hw2; subst; congruence.
      + unfold num in E at 1 |- * at 1. unfold num in E at 1. fold (num ws t) in E |- *. rewrite E, <- app_assoc. reflexivity.
  Qed.
  Lemma tabbed_str x xs : tabbed (map str (x :: xs)) = str x ++ flat_map (fun y => 9%N :: str y) xs.
  Proof.
    revert x. induction xs as [|y xs IH]; intros x; [cbn; now rewrite app_nil_r|]. change (map str (x :: y :: xs)) with (str x :: map str (y :: xs)).
    cbn [tabbed]. change (map str (y :: xs)) with (str y :: map str xs) at 1. rewrite IH. cbn [flat_map]. now rewrite <- app_comm_cons.
  Qed.
  Lemma map_line_ok q out dec : q <> [] -> length dec = 256 ->
    exists row dec', map_line d q (out, dec) = Ok (out ++ row ++ [10%N], dec') /\ length dec' = 256 /\ mapped_line ws q row.
  Proof.
    intros Hq HI. unfold map_line. destruct (map_terms_ok (length q + 1) q dec [] Hq HI ltac:(lia)) as (dec' & ts & last & HI' & Hs & E). rewrite E. cbn [bind app].
    assert (Hx : exists x xs, map (num ws) (ts ++ [last]) = x :: xs) by (destruct ts; cbn; eauto). destruct Hx as (x & xs & Ex). rewrite Ex.
    exists (tabbed (map str (x :: xs))), dec'. rewrite tabbed_str, <- !app_assoc. split; [reflexivity|]. split; [exact HI'|].
    exists (ts ++ [last]), (x :: xs), (map str (x :: xs)). split; [exists ts, last; auto|]. split; [|split; [|now rewrite tabbed_str]].
    - rewrite <- Ex. clear. induction (ts ++ [last]) as [|t l IH]; [constructor|]. cbn [map]. constructor; [apply num_number|exact IH].
    - clear. induction (x :: xs) as [|y l IH]; [constructor|]. cbn [map]. constructor; [apply str_numeral|exact IH].
  Qed.
  Lemma map_lines_ok qs : forall out dec, Forall (fun q => q <> []) qs -> length dec = 256 ->
    exists rows dec', fold_lines (map_line d) qs (out, dec) = Ok (out ++ each_ended rows, dec') /\ Forall2 (mapped_line ws) qs rows.
  Proof.
    induction qs as [|q qs IH]; intros out dec Hq HI.
    - exists [], dec. split; [cbn; now rewrite app_nil_r|constructor].
    - inversion Hq as [|? ? Hq1 Hq2]; subst. destruct (map_line_ok q out dec Hq1 HI) as (row & dec1 & E & HI1 & Hm). cbn [fold_lines]. rewrite E. cbn [bind].
      destruct (IH (out ++ row ++ [10%N]) dec1 Hq2 HI1) as (rows & dec' & E' & Hr). exists (row :: rows), dec'. rewrite E'. split; [|now constructor].
      cbn [each_ended flat_map]. unfold each_ended. now rewrite <- !app_assoc.
  Qed.
End Map.
Section Coll.
  Variable c : collection.
  Hypothesis Hwf : wf_collection c.
  Variable t : texts.
  Hypothesis Ht : holds_collection c t.
  Lemma load_coll : exists p, M_Input.load (t_stats t) = Ok p /\ pa_terms p = N.of_nat (length (terms c)) /\ pa_universe p = N.of_nat (universe c).
  Proof.
    destruct Ht as [(len & nodes & S1 & S2 & S3 & S4) Hd Hm Hi Hfw]. pose proof (levels_le c Hwf) as HL. pose proof (wf_universe c Hwf) as HU.
    destruct (wf_few c Hwf) as (Hc & Hn).
    rewrite (fun A B C D E => load_ok _ _ _ _ _ nodes _ A B C D E S4); [|repeat constructor; unfold small32; lia|exact S3|exact S1|lia|now rewrite S2].
    eexists. split; [reflexivity|]. split; reflexivity.
  Qed.
  Lemma map_queries_ok n ls queries : has_lines ls queries -> Forall (fun q => q <> []) (firstn n ls) ->
    exists rows, map_queries n t queries = Ok (each_ended rows) /\ Forall2 (mapped_line (stored (terms c))) (firstn n ls) rows.
  Proof.
    intros Hl Hq. unfold map_queries. destruct load_coll as (p & E & Ep & _). rewrite E. cbn [bind]. rewrite Ep, Nat2N.id.
    destruct (read_words_ok (terms c) (open_file (t_dict t)) [] (before_open _ _ (hc_dict _ _ Ht))) as (st & Er & _). rewrite Er. cbn [snd].
    destruct (fc_locate_any (terms c) (wf_terms c Hwf)) as (d & Ed & L). rewrite Ed. cbn [bind]. rewrite (each_line_ok _ n ls queries _ _ Hl).
    destruct (map_lines_ok d (stored (terms c))) with (qs := firstn n ls) (out := @nil N) (dec := repeat 0%N 256) as (rows & dec' & E' & Hr).
    { intros s dec Hdec. destruct (L s dec Hdec) as (r & dec' & El & Hl' & Hr). exists dec'. split; [|exact Hl']. rewrite El. do 2 f_equal.
      apply pos_of_iff; [|exact Hr]. exact (P_Kept.stored_sorted _ (proj1 (wf_terms c Hwf))). }
    - exact Hq.
    - apply repeat_length.
    - rewrite E'. cbn [bind app]. eauto.
  Qed.
  Lemma read_postings junk : exists st, read_lists (length (terms c)) (open_file (t_inverted t)) junk =
    (st, map (fun x => map N.of_nat (posting_list c x)) (seq 1 (length (terms c)))).
  Proof.
    destruct (hc_inverted _ _ Ht) as (ws & Hw & Hl).
    destruct (read_lists_ok (map (fun x => map N.of_nat (posting_list c x)) (seq 1 (length (terms c)))) ws (open_file (t_inverted t)) junk) as (st & E & _).
    - apply Forall_forall. intros l Hl'. apply in_map_iff in Hl' as (x & <- & _). now apply posting_small.
    - rewrite map_map. exact Hw.
    - apply before_open. exact Hl.
    - rewrite map_length, seq_length in E. eauto.
  Qed.
End Coll.

(** ** src/output_ds2i_format.cpp *)
Lemma u32_integers x xs file : (x < 4294967296)%N -> integers xs file -> integers (x :: xs) (save u32 x ++ file).
Proof.
  intros Hx H. cbn [save u32 pod le_bytes app].
  replace x with (x mod 256 + 256 * (x / 256 mod 256) + 65536 * (x / 256 / 256 mod 256) + 16777216 * (x / 256 / 256 / 256 mod 256))%N at 1.
  - apply ints_next; [|exact H]. repeat constructor; apply N.mod_lt; discriminate.
  - pose proof (N.div_mod x 256 ltac:(discriminate)) as D1. pose proof (N.div_mod (x / 256) 256 ltac:(discriminate)) as D2.
    pose proof (N.div_mod (x / 256 / 256) 256 ltac:(discriminate)) as D3.
    rewrite (N.mod_small (x / 256 / 256 / 256)); [lia|]. rewrite !N.div_div by discriminate. apply N.div_lt_upper_bound; [discriminate|lia].
Qed.
Lemma u32s_integers l xs file : Forall small32 l -> integers xs file -> integers (l ++ xs) (write_u32s l ++ file).
Proof.
  intros Hl H. unfold write_u32s. induction Hl as [|x l Hx _ IH]; [exact H|]. cbn [flat_map]. rewrite <- app_assoc. apply u32_integers; [exact Hx|exact IH].
Qed.
Lemma lists_integers (f : list N -> list N) ls : (forall l, length (f l) = length l) ->
  Forall (fun l => small32 (N.of_nat (length l)) /\ Forall small32 (f l)) ls ->
  integers (concat (map (fun l => counted (f l)) ls)) (flat_map (fun l => write_u32s [N.of_nat (length l)] ++ write_u32s (f l)) ls).
Proof.
  intros Hlen H. induction H as [|l ls (H1 & H2) _ IH]; [constructor|]. cbn [map concat flat_map]. unfold counted at 1. rewrite Hlen, <- app_assoc, <- app_comm_cons.
  apply (u32s_integers [N.of_nat (length l)]); [now constructor|]. apply u32s_integers; [exact H2|exact IH].
Qed.
Lemma ds2i_ok c t junk : wf_collection c -> holds_collection c t ->
  exists docs freqs, ds2i t junk = Ok (docs, freqs) /\
    let lists := map (fun x => map N.of_nat (posting_list c x)) (seq 1 (length (terms c))) in
    integers (1%N :: N.of_nat (universe c) :: concat (map counted lists)) docs /\
    integers (concat (map (fun l => counted (map (fun _ => 1%N) l)) lists)) freqs.
Proof.
  intros Hwf Ht. unfold ds2i. destruct (load_coll c Hwf t Ht) as (p & E & Ep & Eu). rewrite E. cbn [bind]. rewrite Ep, Eu, Nat2N.id.
  destruct (read_postings c Hwf t Ht junk) as (st & Er). rewrite Er. cbn [snd]. do 2 eexists. split; [reflexivity|]. cbv zeta.
  assert (Hs : Forall (fun l => small32 (N.of_nat (length l)) /\ Forall small32 l) (map (fun x => map N.of_nat (posting_list c x)) (seq 1 (length (terms c))))).
  { apply Forall_forall. intros l Hl. apply in_map_iff in Hl as (x & <- & _). now apply posting_small. }
  split.
  - apply (u32s_integers [1%N; N.of_nat (universe c)]).
    + pose proof (wf_universe c Hwf). repeat constructor; unfold small32; lia.
    + exact (lists_integers (fun l => l) _ (fun l => eq_refl) Hs).
  - apply (lists_integers (map (fun _ => 1%N))); [intros l; apply map_length|]. eapply Forall_impl; [|exact Hs]. intros l (H1 & _). split; [exact H1|].
    apply Forall_forall. intros x Hx. apply in_map_iff in Hx as (y & <- & _). reflexivity.
Qed.

(** ** load_queries *)
Lemma rnd24_small x : (x < 16777216)%N -> rnd24 x = x.
Proof.
  intros H. unfold rnd24. assert (Hs : (N.size x <= 24)%N).
  { destruct (N.eq_dec x 0) as [->|Hx]; [cbn; lia|]. rewrite N.size_log2 by exact Hx. assert (N.log2 x < 24)%N by (apply N.log2_lt_pow2; [lia|exact H]). lia. }
  destruct (N.eqb_spec (N.size x - 24) 0); [reflexivity|lia].
Qed.
(** Rounding stays within half a unit, which is at most half of x / 2^23. *)
Lemma rnd24_shift x : (16777216 <= x)%N -> exists s, (0 < s)%N /\ (2 ^ (23 + s) <= x)%N /\ exists k, rnd24 x = (k * 2 ^ s)%N /\
  (k * 2 ^ s <= x + 2 ^ (s - 1))%N /\ (x <= k * 2 ^ s + 2 ^ (s - 1))%N /\ (k = x / 2 ^ s \/ k = x / 2 ^ s + 1 /\ x mod 2 ^ s <> 0)%N.
Proof.
  intros H. unfold rnd24. set (s := (N.size x - 24)%N).
  assert (Hx : x <> 0%N) by lia. assert (Hl : (24 <= N.log2 x)%N) by (change 24%N with (N.log2 16777216); now apply N.log2_le_mono).
  assert (Es : (23 + s = N.log2 x)%N) by (unfold s; rewrite N.size_log2 by exact Hx; lia). assert (Hs : (0 < s)%N) by lia.
  exists s. split; [exact Hs|]. rewrite Es. split; [apply N.log2_spec; lia|]. destruct (N.eqb_spec s 0); [lia|].
  assert (Hp : (2 ^ s = 2 * 2 ^ (s - 1))%N) by (rewrite <- N.pow_succ_r'; f_equal; lia). assert (Hq : (2 ^ s <> 0)%N) by now apply N.pow_nonzero.
  pose proof (N.div_mod x (2 ^ s) Hq) as D. pose proof (N.mod_lt x (2 ^ s) Hq) as M. clearbody s.
  set (q := (x / 2 ^ s)%N) in *. set (r := (x mod 2 ^ s)%N) in *. clearbody q r. set (h := (2 ^ (s - 1))%N) in *. clearbody h. rewrite Hp in *. clear Hp.
  destruct (N.ltb_spec (2 * r) (2 * h)).
  - exists q. split; [reflexivity|]. split; [nia|]. split; [nia|]. now left.
  - destruct (N.ltb_spec (2 * h) (2 * r)).
    + exists (q + 1)%N. split; [reflexivity|]. split; [nia|]. split; [nia|]. right. split; [reflexivity|lia].
    + destruct (N.odd q); [exists (q + 1)%N|exists q]; (split; [reflexivity|]; split; [nia|]; split; [nia|]); [right; split; [reflexivity|nia]|now left].
Qed.
(** A float is not passed by rounding. *)
Lemma rnd24_le x n e : (n < 16777216)%N -> (x <= n * 2 ^ e)%N -> (rnd24 x <= n * 2 ^ e)%N.
Proof.
  intros Hn Hx. destruct (N.ltb_spec x 16777216); [now rewrite rnd24_small|]. destruct (rnd24_shift x H) as (s & Hs & Hlow & k & -> & _ & _ & Hk).
  assert (He : (s <= e)%N).
  { apply N.lt_succ_r. apply (N.pow_lt_mono_r_iff 2); [lia|]. apply (N.mul_lt_mono_pos_l 8388608); [lia|].
    change 8388608%N with (2 ^ 23)%N at 1. rewrite <- N.pow_add_r, N.pow_succ_r'. assert (0 < 2 ^ e)%N by (apply N.neq_0_lt_0, N.pow_nonzero; lia). nia. }
  assert (Hp : (2 ^ e = 2 ^ (e - s) * 2 ^ s)%N) by (rewrite <- N.pow_add_r; f_equal; lia). assert (Hq : (2 ^ s <> 0)%N) by now apply N.pow_nonzero.
  rewrite Hp, N.mul_assoc in Hx |- *. apply N.mul_le_mono_r. set (y := (n * 2 ^ (e - s))%N) in *. clearbody y.
  assert (Hd : (x / 2 ^ s <= y)%N) by (apply N.div_le_upper_bound; [exact Hq|lia]).
  destruct Hk as [->|(-> & Hm)]; [exact Hd|]. pose proof (N.div_mod x (2 ^ s) Hq) as D.
  enough (x / 2 ^ s <> y)%N by lia. intros E. rewrite E in D. nia.
Qed.
(** The error is at most 1/2 for products below 2^24. *)
Lemma rnd24_near x e : (x < 16777216 * 2 ^ e)%N -> (2 * x <= 2 * rnd24 x + 2 ^ e)%N /\ (2 * rnd24 x <= 2 * x + 2 ^ e)%N.
Proof.
  intros Hx. destruct (N.ltb_spec x 16777216); [rewrite rnd24_small by assumption; lia|]. destruct (rnd24_shift x H) as (s & Hs & Hlow & k & -> & H1 & H2 & _).
  assert (He : (s <= e)%N).
  { apply N.lt_succ_r. apply (N.pow_lt_mono_r_iff 2); [lia|]. apply (N.mul_lt_mono_pos_l 8388608); [lia|]. change 8388608%N with (2 ^ 23)%N at 1. rewrite <- N.pow_add_r, N.pow_succ_r'. lia. }
  assert (Hh : (2 ^ s = 2 * 2 ^ (s - 1))%N) by (rewrite <- N.pow_succ_r'; f_equal; lia).
  assert (2 ^ s <= 2 ^ e)%N by (apply N.pow_le_mono_r; lia). lia.
Qed.
Lemma back_ok body last s : no_space last -> body = [] \/ (exists b, body = b ++ [32%N]) ->
  length body - 1 <= s < length (body ++ last) -> back (body ++ last) s = length body - 1.
Proof.
  intros Hl Hb. induction s as [|s IH]; intros Hs; [cbn [back]; lia|]. cbn [back]. destruct (N.eqb_spec (nth (S s) (body ++ last) 0%N) 32) as [E|E].
  - destruct (Nat.eq_dec (S s) (length body - 1)) as [|Hn]; [assumption|]. exfalso. rewrite app_nth2 in E by lia. rewrite app_length in Hs.
    unfold no_space in Hl. rewrite Forall_forall in Hl. refine (Hl _ _ E). apply nth_In. lia.
  - apply IH. split; [|lia]. destruct (Nat.eq_dec (S s) (length body - 1)) as [Hn|]; [|lia]. exfalso. apply E.
    destruct Hb as [->|(b & ->)]; [cbn in Hn; lia|]. rewrite app_length in Hn. cbn [length] in Hn. rewrite <- app_assoc, app_nth2 by lia.
    now replace (S s - length b) with 0 by lia.
Qed.
Definition ceil_of (n : nat) (m e : N) : N := ((rnd24 (N.of_nat n * m) + (2 ^ e - 1)) / 2 ^ e)%N.
Lemma ceil_bounds n m e : (N.of_nat n < 16777216)%N -> (m <= 2 ^ e)%N ->
  (ceil_of n m e <= N.of_nat n)%N /\ (rnd24 (N.of_nat n * m) <= ceil_of n m e * 2 ^ e)%N /\ (ceil_of n m e * 2 ^ e < rnd24 (N.of_nat n * m) + 2 ^ e)%N.
Proof.
  intros Hn Hm. assert (Hp : (2 ^ e <> 0)%N) by now apply N.pow_nonzero. pose proof (rnd24_le (N.of_nat n * m) (N.of_nat n) e Hn ltac:(nia)) as Hr. unfold ceil_of.
  set (x := rnd24 (N.of_nat n * m)) in *. clearbody x. set (p := (2 ^ e)%N) in *. clearbody p. pose proof (N.div_mod (x + (p - 1)) p Hp) as D.
  pose proof (N.mod_lt (x + (p - 1)) p Hp) as M. set (c := ((x + (p - 1)) / p)%N) in *. clearbody c.
  split; [|split; nia]. apply N.lt_succ_r. apply (N.mul_lt_mono_pos_l p); [lia|]. nia.
Qed.
Lemma trim_ok m e body last ts : (m <= 2 ^ e)%N -> no_space last -> words body ts -> body ++ last <> [] -> (N.of_nat (length (body ++ last)) + 2 < 16777216)%N ->
  let n := match body with [] => length last | _ => S (length last) end in
  let j := N.to_nat (ceil_of n m e) + match body with [] => 2 | _ => 1 end in
  trim m e (body ++ last) = body ++ firstn j last /\
  (N.of_nat (length last) * m <= N.of_nat j * 2 ^ e)%N /\ (N.of_nat j * 2 ^ e < N.of_nat (length last) * m + 4 * 2 ^ e)%N.
Proof.
  intros Hm Hl Hw Hne Hlen n j. pose proof (words_last_space _ _ Hw) as Hb.
  assert (Hnz : length (body ++ last) <> 0) by (intros E; apply Hne; now apply length_zero_iff_nil).
  assert (Hn : length (body ++ last) - (length body - 1) = n) by (unfold n; rewrite app_length; destruct body; cbn [length]; lia).
  assert (Hn' : n <= length (body ++ last)) by lia. assert (Hc : (N.of_nat n < 16777216)%N) by lia.
  destruct (ceil_bounds n m e Hc Hm) as (C1 & C2 & C3). pose proof (rnd24_near (N.of_nat n * m) e ltac:(assert (2 ^ e <> 0)%N by (now apply N.pow_nonzero); nia)) as (R1 & R2).
  assert (Hp : (2 ^ e <> 0)%N) by now apply N.pow_nonzero.
  split; [|split].
  - unfold trim. rewrite (back_ok body last _ Hl Hb) by (rewrite app_length in *; lia). rewrite Hn. rewrite (rnd24_small (N.of_nat n)) by lia.
    fold (ceil_of n m e). assert (Hs : length body - 1 + N.to_nat (ceil_of n m e) <= length (body ++ last)) by (rewrite app_length in *; lia).
    rewrite (rnd24_small (N.of_nat (length body - 1))) by lia. rewrite (rnd24_small (N.of_nat (length body - 1) + _)) by lia. rewrite (rnd24_small (N.of_nat (length body - 1) + ceil_of n m e + 1)) by lia.
    rewrite rnd24_small by lia. rewrite firstn_app. unfold j. f_equal.
    + apply firstn_all2. destruct body; cbn [length]; lia.
    + f_equal. destruct body; cbn [length]; lia.
  - set (x := rnd24 (N.of_nat n * m)) in *. clearbody x. set (p := (2 ^ e)%N) in *. clearbody p. set (cl := ceil_of n m e) in *. clearbody cl.
    unfold j, n in *. rewrite Nat2N.inj_add, N2Nat.id. destruct body; cbn [N.of_nat Pos.of_succ_nat] in *; nia.
  - set (x := rnd24 (N.of_nat n * m)) in *. clearbody x. set (p := (2 ^ e)%N) in *. clearbody p. set (cl := ceil_of n m e) in *. clearbody cl.
    unfold j, n in *. rewrite Nat2N.inj_add, N2Nat.id. destruct body; [nia|]. rewrite Nat2N.inj_succ in *. nia.
Qed.
Lemma fold_load m e qs : forall acc, Forall (fun q => q <> []) qs ->
  fold_lines (fun query queries => match query with [] => UB | _ => Ok (queries ++ [trim m e query]) end) qs acc = Ok (acc ++ map (trim m e) qs).
Proof.
  induction qs as [|q qs IH]; intros acc H; [cbn; now rewrite app_nil_r|]. inversion H as [|? ? H1 H2]; subst. cbn [fold_lines]. destruct q as [|b q]; [congruence|].
  cbn [bind]. rewrite IH by exact H2. cbn [map]. now rewrite <- app_assoc.
Qed.

Lemma load_queries_ok m e max is ls : (m <= 2 ^ e)%N -> has_lines ls is ->
  Forall (fun q => q <> [] /\ (N.of_nat (length q) + 2 < 16777216)%N) (firstn max ls) ->
  exists outs, load_queries max m e is = Ok outs /\ Forall2 (shortened m e) (firstn max ls) outs.
Proof.
  intros Hm Hl Hq. unfold load_queries. rewrite (each_line_ok _ max ls is _ _ Hl), fold_load by (eapply Forall_impl; [|exact Hq]; now intros q (H & _)).
  eexists. split; [reflexivity|]. cbn [app]. induction Hq as [|q qs (H1 & H2) _ IH]; [constructor|]. cbn [map]. constructor; [|exact IH].
  destruct (query_split_ex q) as (ts & last & body & -> & Hs & Hw). destruct (trim_ok m e body last ts Hm Hs Hw H1 H2) as (E & B1 & B2).
  exists body, last, ts. eexists. split; [reflexivity|]. split; [exact Hs|]. split; [exact Hw|]. split; [exact E|]. split; [destruct body; lia|]. auto.
Qed.
Lemma shortened_split m e q short ts last : shortened m e q short -> query_split q ts last ->
  exists last', query_split short ts last' /\ is_prefix last' last /\ (last <> [] -> last' <> []).
Proof.
  intros (body & last0 & ts0 & j & E & Hs & Hw & -> & Hj & _) Hq. assert (Hq0 : query_split q ts0 last0) by (exists body; auto).
  destruct (query_split_det q ts last ts0 last0 Hq Hq0) as (-> & ->). exists (firstn j last0). split; [|split].
  - exists body. split; [reflexivity|]. split; [|exact Hw]. unfold no_space in *. rewrite <- (firstn_skipn j last0) in Hs. now apply Forall_app in Hs.
  - exists (skipn j last0). symmetry. apply firstn_skipn.
  - intros Hne. destruct last0; [congruence|]. destruct j; [lia|]. discriminate.
Qed.
Lemma postings_exact c j w : wf_collection c -> nth_error (terms c) j = Some w ->
  exists l, nth_error (map (fun x => map N.of_nat (posting_list c x)) (seq 1 (length (terms c)))) j = Some (map N.of_nat l) /\
    StronglySorted lt l /\ forall d, In d l <-> exists ids, is_doc c d ids /\ In w (words_of c ids).
Proof.
  intros Hwf Hj. assert (Hlt : j < length (terms c)) by (apply nth_error_Some; congruence). exists (posting_list c (j + 1)). split; [|split].
  - rewrite (map_nth_error (fun x => map N.of_nat (posting_list c x)) j (seq 1 (length (terms c))) (d := j + 1)); [reflexivity|].
    rewrite (nth_error_nth' _ 0) by now rewrite seq_length. rewrite seq_nth by exact Hlt. f_equal. lia.
  - apply posting_increasing.
  - intros d. rewrite (in_posting c Hwf). split; intros (ids & Hd & H); exists ids; (split; [exact Hd|]); now apply (in_words c Hwf ids w j (is_doc_in c d ids Hd) Hj).
Qed.
