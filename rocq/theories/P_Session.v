(** Proofs about sessions with the server. *)
From Coq Require Import String.
From Verif Require Import Base S_Order S_Vocab S_Parse M_Fc M_Text M_Trie M_Containers S_Containers M_Auto M_Auto1 S_Collection S_Index S_Found S_Json M_Web M_Request S_Request S_Session.
From Verif Require Import P_Auto1 P_Web P_Collection P_Parse P_ParseFc P_Request.
Local Open Scope nat_scope.

Lemma heard_var q t : heard q t -> http_var MAX_CHARS q = t.
Proof.
  intros H. unfold heard, http_var in *. change MAX_CHARS with 128. destruct q as [u|]; [|congruence].
  destruct H as [[H ->]|[H ->]]; destruct (Nat.ltb_spec (length u) 128); try lia; reflexivity.
Qed.
Lemma heard_exists q : exists t, heard q t.
Proof.
  destruct q as [u|]; [|exists []; reflexivity]. destruct (le_lt_dec (length u) 127) as [H|H]; [exists u; left; auto|exists []; right; auto].
Qed.
(** * The variable k *)
Lemma skip_white w r : Forall (fun b => b = 32 \/ 9 <= b <= 13)%N w -> (forall b r', r = b :: r' -> is_space b = false) -> skip_spaces (w ++ r) = r.
Proof.
  intros Hw Hr. induction Hw as [|b w Hb _ IH]; cbn [app skip_spaces].
  - destruct r as [|b r]; [reflexivity|]. cbn [skip_spaces]. now rewrite (Hr b r eq_refl).
  - assert (E : is_space b = true) by (unfold is_space; lia). now rewrite E.
Qed.
Lemma skip_split s : exists w, s = (w ++ skip_spaces s)%list /\ Forall (fun b => b = 32 \/ 9 <= b <= 13)%N w.
Proof.
  induction s as [|b s (w & E & Hw)]; [exists []; split; [reflexivity|constructor]|]. cbn [skip_spaces]. destruct (is_space b) eqn:Eb.
  - exists (b :: w). split; [cbn [app]; now rewrite <- E|]. constructor; [unfold is_space in Eb; lia|exact Hw].
  - exists []. split; [reflexivity|constructor].
Qed.
Lemma digits_split s : exists ds rest, s = (ds ++ rest)%list /\ Forall is_digit ds /\ (forall b r, rest = b :: r -> ~ is_digit b).
Proof.
  induction s as [|b s (ds & rest & E & Hd & Hr)]; [exists [], []; split; [reflexivity|split; [constructor|discriminate]]|].
  destruct (isdigit b) eqn:Eb.
  - exists (b :: ds), rest. split; [cbn [app]; now rewrite <- E|]. split; [constructor; [unfold isdigit in Eb; unfold is_digit; lia|exact Hd]|exact Hr].
  - exists [], (b :: s). split; [reflexivity|]. split; [constructor|]. intros b' r [= <- <-] H. unfold is_digit in H. unfold isdigit in Eb. lia.
Qed.
Lemma read_digits_app ds rest : Forall is_digit ds -> (forall b r, rest = b :: r -> ~ is_digit b) -> forall v,
  read_digits (ds ++ rest) v = fold_left (fun v b => 10 * v + (b - 48))%N ds v.
Proof.
  intros Hd Hr. induction Hd as [|b ds Hb _ IH]; intros v; cbn [app read_digits fold_left].
  - destruct rest as [|b r]; [reflexivity|]. cbn [read_digits]. specialize (Hr b r eq_refl). assert (E : isdigit b = false) by (unfold is_digit in Hr; unfold isdigit; lia).
    now rewrite E.
  - assert (E : isdigit b = true) by (unfold is_digit in Hb; unfold isdigit; lia). rewrite E. apply IH.
Qed.
Lemma dec_bound ds : Forall is_digit ds -> forall v n, (v < 10 ^ N.of_nat n)%N -> (fold_left (fun v b => 10 * v + (b - 48)) ds v < 10 ^ N.of_nat (n + length ds))%N.
Proof.
  intros Hd. induction Hd as [|b ds Hb _ IH]; intros v n Hv; cbn [fold_left length]; [now rewrite Nat.add_0_r|].
  replace (n + S (length ds)) with (S n + length ds) by lia. apply IH. rewrite Nat2N.inj_succ, N.pow_succ_r'. unfold is_digit in Hb. lia.
Qed.
Lemma stoull_number t neg v : length t <= 15 -> begins_with_number t neg v ->
  exists u, stoull t = Ok u /\ Z.of_N u = ((if neg then - Z.of_N v else Z.of_N v) mod 18446744073709551616)%Z.
Proof.
  intros Hl (w & sign & ds & rest & -> & Hw & Hs & (Hn & Hd) & Hr & ->). destruct ds as [|d ds]; [congruence|]. clear Hn.
  assert (Hb : (fold_left (fun v b => 10 * v + (b - 48)) (d :: ds) 0 < 18446744073709551616)%N).
  { eapply N.lt_le_trans; [apply (dec_bound (d :: ds) Hd 0%N 0); reflexivity|]. rewrite !app_length in Hl. change 18446744073709551616%N with (2 ^ 64)%N.
    transitivity (10 ^ 15)%N; [apply N.pow_le_mono_r; lia|intros H; discriminate H]. }
  pose proof (read_digits_app (d :: ds) rest Hd Hr 0%N) as Er. inversion Hd as [|? ? Hd0 _]; subst. unfold is_digit in Hd0. assert (Ei : isdigit d = true) by (unfold isdigit; lia).
  assert (Ew : skip_spaces (w ++ sign ++ (d :: ds) ++ rest) = (sign ++ (d :: ds) ++ rest)%list).
  { apply skip_white; [exact Hw|]. intros b r E. destruct Hs as [[_ [->| ->]]|[_ ->]]; injection E as <- _; [unfold is_space; lia|reflexivity|reflexivity]. }
  unfold stoull. rewrite Ew. cbn [app] in Er |- *. destruct Hs as [[-> [->| ->]]|[-> ->]]; cbn [app N.eqb Pos.eqb].
  - destruct (N.eqb_spec d 45); [lia|]. destruct (N.eqb_spec d 43); [lia|]. rewrite Ei, Er. apply N.ltb_lt in Hb as Hb'. rewrite Hb'.
    eexists. split; [reflexivity|]. rewrite Z.mod_small; [reflexivity|lia].
  - rewrite Ei, Er. apply N.ltb_lt in Hb as Hb'. rewrite Hb'. eexists. split; [reflexivity|]. rewrite Z.mod_small; [reflexivity|lia].
  - rewrite Ei, Er. apply N.ltb_lt in Hb as Hb'. rewrite Hb'. eexists. split; [reflexivity|].
    rewrite N2Z.inj_mod, N2Z.inj_sub by lia. change (Z.of_N 18446744073709551616) with 18446744073709551616%Z.
    set (z := Z.of_N (fold_left _ _ _)). replace (18446744073709551616 - z)%Z with (- z + 1 * 18446744073709551616)%Z by lia. apply Z.mod_add. discriminate.
Qed.
Lemma stoull_dec t : (exists neg v, begins_with_number t neg v) \/ stoull t = Exn.
Proof.
  destruct (skip_split t) as (w & E & Hw). unfold stoull. set (t' := skip_spaces t) in *. clearbody t'.
  assert (H : forall neg sign s, (neg = false /\ (sign = [] \/ sign = [43%N]) \/ neg = true /\ sign = [45%N]) -> t = (w ++ sign ++ s)%list ->
    (exists neg v, begins_with_number t neg v) \/ (forall b s', s = b :: s' -> isdigit b = false)).
  { intros neg sign s Hs Et. destruct (digits_split s) as (ds & rest & Es & Hd & Hr). destruct ds as [|d ds].
    - right. intros b s' ->. cbn in Es. specialize (Hr b s' (eq_sym Es)). unfold is_digit in Hr. unfold isdigit. lia.
    - left. exists neg. eexists. exists w, sign, (d :: ds), rest. split; [now rewrite Et, Es|]. split; [exact Hw|]. split; [exact Hs|].
      split; [split; [discriminate|exact Hd]|]. split; [exact Hr|reflexivity]. }
  assert (G : forall neg s, (forall b s', s = b :: s' -> isdigit b = false) ->
    match s with b :: _ => if isdigit b then let v := read_digits s 0 in
        if (v <? 18446744073709551616)%N then Ok (if neg : bool then ((18446744073709551616 - v) mod 18446744073709551616)%N else v) else Exn else Exn
      | [] => Exn end = Exn).
  { intros neg [|b s] Hs; [reflexivity|]. now rewrite (Hs b s eq_refl). }
  destruct t' as [|b s]; [right; reflexivity|]. destruct (N.eqb_spec b 45) as [->|].
  - destruct (H true [45%N] s) as [A|A]; [auto|exact E|left; exact A|right; exact (G true s A)].
  - destruct (N.eqb_spec b 43) as [->|].
    + destruct (H false [43%N] s) as [A|A]; [auto|exact E|left; exact A|right; exact (G false s A)].
    + destruct (H false [] (b :: s)) as [A|A]; [auto|exact E|left; exact A|right; exact (G false (b :: s) A)].
Qed.
Lemma counts_k kv k : counts kv k -> exists u, (match http_var 16 kv with [] => Ok 10%N | _ => stoull (http_var 16 kv) end) = Ok u /\ N.to_nat (u mod 4294967296) = k.
Proof.
  unfold counts, http_var. destruct kv as [t|]; [|intros ->; exists 10%N; split; reflexivity]. intros [[[->|Hl] ->]|(Hn & Hl & neg & v & Hv & Hk)].
  - exists 10%N. split; reflexivity.
  - destruct (Nat.ltb_spec (length t) 16); [lia|]. exists 10%N. split; reflexivity.
  - destruct (Nat.ltb_spec (length t) 16); [|lia]. destruct (stoull_number t neg v Hl Hv) as (u & E & Hu). exists u. split; [destruct t; [congruence|exact E]|].
    apply Nat2Z.inj. rewrite Hk, N_nat_Z, N2Z.inj_mod, Hu. change (Z.of_N 4294967296) with 4294967296%Z.
    set (z := if neg then _ else _). rewrite <- Znumtheory.Zmod_div_mod; [reflexivity|lia|lia|exists 4294967296%Z; reflexivity].
Qed.
Lemma counts_unique kv k k' : counts kv k -> counts kv k' -> k = k'.
Proof. intros H H'. destruct (counts_k kv k H) as (u & E & <-). destruct (counts_k kv k' H') as (u' & E' & <-). congruence. Qed.
Lemma counts_or_senseless kv : (exists k, counts kv k) \/ senseless kv.
Proof.
  destruct kv as [t|]; [|left; exists 10; reflexivity]. destruct t as [|b t]; [left; exists 10; left; auto|].
  destruct (le_lt_dec (length (b :: t)) 15) as [Hl|Hl]; [|left; exists 10; left; auto].
  destruct (stoull_dec (b :: t)) as [(neg & v & H)|H].
  - left. exists (Z.to_nat ((if neg then - Z.of_N v else Z.of_N v) mod 4294967296)). right. split; [discriminate|]. split; [exact Hl|]. exists neg, v. split; [exact H|].
    apply Z2Nat.id. apply Z.mod_pos_bound. lia.
  - right. exists (b :: t). split; [reflexivity|]. split; [discriminate|]. split; [exact Hl|]. intros neg v Hb.
    destruct (stoull_number _ neg v Hl Hb) as (u & E & _). congruence.
Qed.
Lemma senseless_stops K x fuel q kv s : senseless kv -> serve K x fuel q kv s = Exn.
Proof.
  intros (t & -> & Hn & Hl & H). unfold serve, topcomp, http_var. destruct (Nat.ltb_spec (length t) 16); [|lia].
  destruct (stoull_dec t) as [(neg & v & A)|A]; [destruct (H neg v A)|]. rewrite A. destruct t; [congruence|reflexivity].
Qed.
(** What the page sends. *)
Lemma asks_counts kv k : asks_for kv k -> (N.of_nat k < 4294967296)%N -> counts kv k.
Proof.
  unfold asks_for, counts. destruct kv as [t|]; [|auto]. intros [[Hl ((Hn & Hd) & _ & Hv)]|[Hl ->]] Hk; [|left; auto].
  right. split; [exact Hn|]. split; [exact Hl|]. exists false, (N.of_nat k). split.
  - exists [], [], t, []. split; [now rewrite app_nil_r|]. split; [constructor|]. split; [auto|]. split; [split; assumption|]. split; [discriminate|symmetry; exact Hv].
  - rewrite nat_N_Z, Z.mod_small; lia.
Qed.

Lemma body_empty p : pool_results p = Ok [] -> body p = Ok (bytes "{""suggestions"":[""value"":"""",""data"":""""]}" ++ [10%N])%list.
Proof.
  unfold pool_results, body. intros E. destruct (p_offsets p) as [|o0 o]; [discriminate|]. pose proof (map_res_length _ _ _ E) as Hl.
  rewrite seq_length in Hl. destruct o; [reflexivity|discriminate].
Qed.
Lemma join_chars ws x : In x (join ws) -> x = 32%N \/ exists w, In w ws /\ In x w.
Proof.
  induction ws as [|w ws IH]; intros H; [destruct H|]. destruct ws as [|w' ws]; [right; exists w; split; [now left|exact H]|].
  change (join (w :: w' :: ws)) with (w ++ 32%N :: join (w' :: ws))%list in H. apply in_app_iff in H. destruct H as [H|[H|H]].
  - right. exists w. split; [now left|exact H].
  - left. congruence.
  - destruct (IH H) as [E|(v & Hv & Hx)]; [left; exact E|right; exists v; split; [now right|exact Hx]].
Qed.

(** The body depends on the results only. *)
Lemma entries_same p p' n : forall i rs, map_res (pool_get p) (seq i n) = Ok rs -> map_res (pool_get p') (seq i n) = Ok rs -> entries p n i = entries p' n i.
Proof.
  induction n as [|n IH]; intros i rs E E'; [reflexivity|]. cbn [seq map_res entries] in *.
  destruct (pool_get p i) as [r| | |]; cbn [bind] in *; try discriminate. destruct (pool_get p' i) as [r'| | |]; cbn [bind] in *; try discriminate.
  destruct (map_res (pool_get p) (seq (S i) n)) as [rs1| | |] eqn:E1; cbn [bind] in E; try discriminate.
  destruct (map_res (pool_get p') (seq (S i) n)) as [rs2| | |] eqn:E2; cbn [bind] in E'; try discriminate.
  injection E as <-. injection E' as -> ->. rewrite Nat.add_1_r, (IH (S i) rs1 E1 E2). reflexivity.
Qed.
Lemma body_same p p' rs : pool_results p = Ok rs -> pool_results p' = Ok rs -> body p = body p'.
Proof.
  destruct rs as [|r rs]; [intros E E'; now rewrite (body_empty p E), (body_empty p' E')|].
  unfold pool_results, body. destruct (p_offsets p) as [|o0 o]; [discriminate|]. destruct (p_offsets p') as [|o0' o']; [discriminate|]. intros E E'.
  pose proof (map_res_length _ _ _ E) as Hl. pose proof (map_res_length _ _ _ E') as Hl'. rewrite seq_length in Hl, Hl'.
  rewrite <- Hl in E. rewrite <- Hl' in E'. destruct o; [discriminate|]. destruct o'; [discriminate|]. rewrite <- Hl, <- Hl'.
  now rewrite (entries_same p p' _ 0 _ E E').
Qed.

Section Session.
  Context (K : containers) (HK : containers_ok K) (c : collection) (Hwf : wf_collection c) (Hp : some_doc_positive c) (H0 : some_term_not_in_doc0 c) (Hpc : percent_free c).

  Lemma answer_no_percent P k out : topk_answer c P k out -> no_percent out.
  Proof using Hwf Hpc.
    intros (_ & _ & H & _). apply Forall_forall. intros [d s] Hi Hx. cbn [snd] in Hx. destruct (H d s Hi) as (ids & Hd & _ & ->).
    unfold text in Hx. destruct (join_chars _ _ Hx) as [E|(w & Hw & Hx')]; [discriminate E|].
    exact (Hpc w (words_in c Hwf ids w (is_doc_in c d ids Hd) Hw) Hx').
  Qed.

  Lemma session_served : exists x, ac1_build K (files_of c) = Ok x /\
    forall fuel rs s, query_fuel c < fuel -> Forall (web_request c) rs -> state1_ok s ->
    exists datas s', serve_all K x fuel rs s = Ok (datas, s') /\ Forall2 (responds c) rs datas /\
      Forall2 (fun r data => exists s1, serve K x fuel (fst r) (snd r) state1_new = Ok (data, s1)) rs datas /\ state1_ok s'.
  Proof using HK Hwf Hp H0 Hpc.
    destruct (auto1_exact K HK c Hwf Hp H0) as (x & E & H). exists x. split; [exact E|]. intros fuel rs s Hf Hrs. revert s.
    induction Hrs as [|[q kv] rs [(k & Hk) Hr] _ IH]; intros s Hs; [exists [], s; split; [reflexivity|split; [constructor|split; [constructor|exact Hs]]]|].
    cbn [fst snd] in *. destruct (heard_exists q) as (t & Ht). destruct (query_split_exists_unique t) as (ts & last & Hq & _).
    destruct (H fuel k t ts last s Hf Hq Hs) as (_ & out & Ho & Hok & _).
    assert (Hw : web_answer c (q, kv) out).
    { exists t, k. split; [exact Ht|]. split; [exact Hk|]. exists ts, last. split; [exact Hq|exact Ho]. }
    destruct (Hok (Hr out Hw)) as (s1 & E1 & E2 & Hs1). destruct (IH s1 Hs1) as (datas & s' & I1 & I2 & I4 & I3).
    assert (Hd : exists data, serve K x fuel q kv s = Ok (data, s1) /\ responds c (q, kv) data /\ exists s2, serve K x fuel q kv state1_new = Ok (data, s2)).
    { destruct (H fuel k t ts last state1_new Hf Hq state1_new_ok) as (_ & out' & Ho' & Hok' & _).
      assert (Eo : out' = out) by (eapply answer_unique; eassumption). subst out'. destruct (Hok' (Hr out Hw)) as (s2 & F1 & F2 & _).
      unfold serve, topcomp. destruct (counts_k kv k Hk) as (u & Eu & Ek). rewrite Eu, (heard_var q t Ht). cbn [bind]. rewrite Ek. rewrite E1, F1. cbn [bind].
      rewrite (body_same _ _ _ F2 E2).
      destruct out as [|r out].
      - rewrite (body_empty _ E2). cbn [bind]. eexists. split; [reflexivity|]. split; [|eexists; reflexivity]. exists []. split; [exact Hw|]. split; [congruence|reflexivity].
      - destruct (body_json _ _ E2 ltac:(discriminate)) as (data & v & Eb & Hj & Hv). rewrite Eb. cbn [bind].
        rewrite (body_printf _ _ _ E2 ltac:(discriminate) Eb (answer_no_percent _ _ _ Ho)). cbn [bind]. exists data. split; [reflexivity|]. split; [|eexists; reflexivity].
        exists (r :: out). split; [exact Hw|]. split; [intros _; exists v; split; assumption|discriminate]. }
    destruct Hd as (data & Ed & Hd & Hd'). exists (data :: datas), s'. split; [|split; [constructor; assumption|split; [constructor; assumption|exact I3]]].
    cbn [serve_all]. rewrite Ed. cbn [bind]. rewrite I1. reflexivity.
  Qed.

  (** With short completions, requests for a few of them. *)
  Lemma short_request L r k : sizes_ok c -> short_texts L c -> counts (snd r) k -> affordable L k -> web_request c r.
  Proof using Hwf.
    intros Hz Ht Hk [Hk' HL]. split; [exists k; exact Hk|].
    intros out (t & k' & _ & Hk2 & ts & last & _ & Ho). assert (k' = k) by (eapply counts_unique; eassumption). subst k'. cbn [rq_conj rq_k] in Ho.
    unfold limit in Ho. destruct (Nat.eqb_spec k 0); [lia|]. destruct Ho as (_ & Hl & Ho & _). eapply reportable_all; [exact Hwf|exact Hz|exact Ho| |change MAX_K with 15; lia].
    assert (Hlen : length (concat (map snd out)) <= L * length out).
    { clear Hl. induction out as [|[d s] out IH]; [cbn; lia|]. cbn [map snd concat length]. rewrite app_length.
      destruct (Ho d s ltac:(now left)) as (ids & Hd & _ & ->). specialize (Ht ids (is_doc_in c d ids Hd)).
      assert (length (concat (map snd out)) <= L * length out) by (apply IH; intros d' s' Hi; apply Ho; now right). lia. }
    unfold fits_pool. change POOL_SIZE with 1920. nia.
  Qed.

  (** A request that cannot be answered. *)
  Lemma session_ends : exists x, ac1_build K (files_of c) = Ok x /\
    forall fuel q kv out s, query_fuel c < fuel -> state1_ok s ->
    web_answer c (q, kv) out -> ~ reportable c out -> serve K x fuel q kv s = UB.
  Proof using HK Hwf Hp H0.
    destruct (auto1_exact K HK c Hwf Hp H0) as (x & E & H). exists x. split; [exact E|]. intros fuel q kv out s Hf Hs (t & k & Ht & Hk & ts & last & Hq & Ho) Hn.
    cbn [fst snd rq_conj rq_k rq_text] in *. destruct (H fuel k t ts last s Hf Hq Hs) as (_ & out' & Ho' & _ & Hub).
    assert (Eo : out' = out) by (eapply answer_unique; eassumption). subst out'.
    unfold serve, topcomp. destruct (counts_k kv k Hk) as (u & Eu & Ek). rewrite Eu, (heard_var q t Ht). cbn [bind]. rewrite Ek.
    rewrite (Hub Hn). reflexivity.
  Qed.

  Lemma every_request : exists x, ac1_build K (files_of c) = Ok x /\
    forall fuel q kv s, query_fuel c < fuel -> state1_ok s ->
    senseless kv /\ serve K x fuel q kv s = Exn \/
    ~ senseless kv /\ exists out, (forall o, web_answer c (q, kv) o <-> o = out) /\
      (reportable c out -> exists data s', serve K x fuel q kv s = Ok (data, s') /\ responds c (q, kv) data /\ state1_ok s') /\
      (~ reportable c out -> serve K x fuel q kv s = UB).
  Proof using HK Hwf Hp H0 Hpc.
    destruct session_served as (x & E & H). destruct session_ends as (x' & E' & H'). assert (x' = x) by congruence. subst x'.
    destruct (auto1_exact K HK c Hwf Hp H0) as (x' & E2 & H2). assert (x' = x) by congruence. subst x'.
    exists x. split; [exact E|]. intros fuel q kv s Hf Hs. destruct (counts_or_senseless kv) as [(k & Hk)|Hn]; [|left; split; [exact Hn|now apply senseless_stops]].
    right. split.
    { intros Hn. pose proof (senseless_stops K x fuel q kv s Hn) as Ex. destruct Hn as (t & -> & Hn & Hl & Hv). destruct Hk as [[[A|A] _]|(_ & _ & neg & v & A & _)]; [congruence|lia|exact (Hv neg v A)]. }
    destruct (heard_exists q) as (t & Ht). destruct (query_split_exists_unique t) as (ts & last & Hq & _).
    destruct (H2 fuel k t ts last s Hf Hq Hs) as (_ & out & Ho & _ & _).
    assert (Hu : forall o, web_answer c (q, kv) o <-> o = out).
    { intros o. split.
      - intros (t' & k' & Ht' & Hk' & ts' & last' & Hq' & Ho'). cbn [fst snd rq_conj rq_k rq_text] in *.
        assert (t' = t) by (rewrite <- (heard_var q t' Ht'); exact (heard_var q t Ht)). assert (k' = k) by (eapply counts_unique; eassumption). subst t' k'.
        destruct (query_split_det _ _ _ _ _ Hq Hq') as [-> ->]. eapply answer_unique; eassumption.
      - intros ->. exists t, k. split; [exact Ht|]. split; [exact Hk|]. exists ts, last. split; [exact Hq|exact Ho]. }
    exists out. split; [exact Hu|]. split; intros Hr.
    - destruct (H fuel [(q, kv)] s Hf) as (datas & s' & E3 & E4 & _ & E5); [|exact Hs|].
      { constructor; [|constructor]. split; [exists k; exact Hk|]. intros o Ho'. apply Hu in Ho'. now subst o. }
      inversion E4 as [|? data ? l Hd Hl]; subst. inversion Hl; subst. exists data, s'. cbn [serve_all] in E3.
      destruct (serve K x fuel q kv s) as [[d s1]| | |]; cbn [bind] in E3; try discriminate. injection E3 as -> ->. auto.
    - apply (H' fuel q kv out s Hf Hs); [apply Hu; reflexivity|exact Hr].
  Qed.
End Session.
