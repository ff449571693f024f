(** Proofs about percent signs in the responses. *)
From Coq Require Import String.
From Verif Require Import Base S_Order S_Vocab S_Parse M_Fc M_Text M_Trie M_Containers S_Containers M_Auto M_Auto1 S_Collection S_Index S_Found S_Json M_Web M_Request S_Request S_Session S_Percent.
From Verif Require Import P_Auto1 P_Web P_Collection P_Parse P_ParseFc P_Request P_Session.
Local Open Scope nat_scope.

Fixpoint halve (s : list N) : option (list N) :=
  match s with
  | [] => Some []
  | b :: s' =>
      if (b =? 37)%N then
        match s' with
        | c :: s'' => if (c =? 37)%N then option_map (cons 37%N) (halve s'') else None
        | [] => None
        end
      else option_map (cons b) (halve s')
  end.
Lemma halve_halved s t : halved s t -> halve s = Some t.
Proof.
  induction 1 as [|b s t Hb _ IH|s t _ IH]; cbn [halve]; [reflexivity| |].
  - destruct (N.eqb_spec b 37); [congruence|]. now rewrite IH.
  - cbn [N.eqb Pos.eqb]. now rewrite IH.
Qed.
Lemma halved_halve n : forall s t, length s <= n -> halve s = Some t -> halved s t.
Proof.
  induction n as [|n IH]; intros s t Hl E; (destruct s as [|b s]; [injection E as <-; constructor|]); cbn [length] in Hl; [lia|]. cbn [halve] in E.
  destruct (N.eqb_spec b 37) as [->|Hb].
  - destruct s as [|c s]; [discriminate|]. destruct (N.eqb_spec c 37) as [->|]; [|discriminate]. destruct (halve s) as [t'|] eqn:E'; [|discriminate]. injection E as <-.
    apply halved_percent. apply IH; [cbn [length] in Hl; lia|exact E'].
  - destruct (halve s) as [t'|] eqn:E'; [|discriminate]. injection E as <-. constructor; [exact Hb|]. apply IH; [lia|exact E'].
Qed.
Lemma halved_same s : halved s s <-> ~ In 37%N s.
Proof.
  split.
  - assert (Hl : forall s t, halved s t -> length t <= length s) by (clear; induction 1; cbn [length]; lia).
    assert (H : forall u t, halved u t -> u = t -> ~ In 37%N u).
    { induction 1 as [|b u t Hb _ IH|u t Hut _]; intros E.
      - intros [].
      - injection E as E. intros [Hi|Hi]; [congruence|]. exact (IH E Hi).
      - injection E as E. apply Hl in Hut. rewrite <- E in Hut. cbn [length] in Hut. lia. }
    intros Hs. exact (H s s Hs eq_refl).
  - induction s as [|b s IH]; intros H; [constructor|]. constructor; [intros ->; apply H; now left|]. apply IH. intros Hi. apply H. now right.
Qed.

Lemma printf_app a r : Forall plain a -> printf (a ++ r) = do r' <- printf r; Ok (a ++ r')%list.
Proof.
  induction 1 as [|b a (H0 & H37) _ IH]; cbn [app printf]; [destruct (printf r); reflexivity|].
  destruct (N.eqb_spec b 0); [congruence|]. destruct (N.eqb_spec b 37); [congruence|]. rewrite IH. destruct (printf r); reflexivity.
Qed.
(** A text, followed by its closing quotation mark. *)
Lemma printf_text r n : forall s, length s <= n ->
  printf (escape_json s ++ 34%N :: r) = match halve s with Some t => do r' <- printf (34%N :: r); Ok (escape_json t ++ r')%list | None => UB end.
Proof.
  assert (Hch : forall b, b <> 37%N -> Forall plain (if escaped b then (bytes "\u00" ++ [hex_digit (b / 16); hex_digit (b mod 16)]%N)%list else [b])).
  { intros b Hb. pose proof (escape_plain [b]) as H. cbn [escape_json] in H. rewrite app_nil_r in H. apply H. intros [->|[]]. congruence. }
  remember (printf (34%N :: r)) as z eqn:Ez.
  induction n as [|n IH]; intros s Hl; (destruct s as [|b s]; [cbn [escape_json halve app]; rewrite <- Ez; destruct z; reflexivity|]); cbn [length] in Hl; [lia|].
  cbn [escape_json halve]. destruct (N.eqb_spec b 37) as [->|Hb].
  - change (escaped 37) with false. cbn [app]. destruct s as [|c s]; [reflexivity|]. destruct (N.eqb_spec c 37) as [->|Hc].
    + cbn [escape_json]. change (escaped 37) with false. cbn [app printf N.eqb Pos.eqb]. rewrite IH by (cbn [length] in Hl; lia).
      destruct (halve s) as [t|]; cbn [option_map bind]; [|reflexivity]. cbn [escape_json]. change (escaped 37) with false. destruct z; reflexivity.
    + cbn [escape_json printf N.eqb Pos.eqb]. destruct (escaped c); cbn [app bytes map list_ascii_of_string]; [reflexivity|]. destruct (N.eqb_spec c 37); [congruence|reflexivity].
  - rewrite <- app_assoc, (printf_app _ _ (Hch b Hb)), IH by lia. destruct (halve s) as [t|]; cbn [option_map bind]; [|reflexivity].
    destruct z; cbn [bind]; try reflexivity. cbn [escape_json]. now rewrite <- app_assoc.
Qed.
Fixpoint halve_all (l : list (list N)) : option (list (list N)) :=
  match l with
  | [] => Some []
  | s :: l' => match halve s, halve_all l' with Some t, Some m => Some (t :: m) | _, _ => None end
  end.
Lemma halve_all_halved l m : Forall2 halved l m <-> halve_all l = Some m.
Proof.
  split.
  - induction 1 as [|s t l m H _ IH]; cbn [halve_all]; [reflexivity|]. now rewrite (halve_halved s t H), IH.
  - revert m. induction l as [|s l IH]; intros m E; cbn [halve_all] in E; [injection E as <-; constructor|].
    destruct (halve s) as [t|] eqn:Es; [|discriminate]. destruct (halve_all l) as [m'|]; [|discriminate]. injection E as <-.
    constructor; [exact (halved_halve _ s t (le_n _) Es)|apply IH; reflexivity].
Qed.
Lemma printf_listing r ss : forall i poss, length poss = length ss -> Forall (Forall is_digit) poss ->
  printf (listing i (combine ss poss) ++ r) = match halve_all ss with Some ts => do r' <- printf r; Ok (listing i (combine ts poss) ++ r')%list | None => UB end.
Proof.
  induction ss as [|s ss IH]; intros i poss Hl Hp; (destruct poss as [|p poss]; try discriminate); [cbn; destruct (printf r); reflexivity|].
  inversion Hp as [|? ? Hd Hp']; subst. cbn [length] in Hl. injection Hl as Hl. cbn [combine listing halve_all]. set (comma := if 0 <? i then bytes "," else []).
  assert (Hc : Forall plain comma) by (unfold comma; destruct (0 <? i); repeat constructor; discriminate). unfold item. rewrite <- !app_assoc.
  rewrite (printf_app _ _ Hc), (printf_app (bytes "{""value"":""") _) by (repeat constructor; discriminate).
  change (bytes """,") with (34%N :: bytes ","). rewrite <- app_comm_cons. rewrite (printf_text _ (length s)) by lia.
  destruct (halve s) as [t|]; [|reflexivity].
  assert (Et : forall u, printf (34%N :: (bytes "," ++ bytes """data"":""" ++ p ++ bytes """}" ++ u)) =
    do u' <- printf u; Ok (34%N :: (bytes "," ++ bytes """data"":""" ++ p ++ bytes """}" ++ u'))%list).
  { intros u. pose proof (printf_app (34%N :: bytes "," ++ bytes """data"":""" ++ p ++ bytes """}")%list u) as H. cbn [app] in H. rewrite <- !app_assoc in H.
    cbn [app] in H |- *. rewrite H; [destruct (printf u); cbn [bind]; [|reflexivity..]; rewrite <- ?app_assoc; reflexivity|].
    change (Forall plain ((34%N :: bytes "," ++ bytes """data"":""") ++ p ++ bytes """}")%list). apply Forall_app. split; [repeat constructor; discriminate|]. apply Forall_app.
    split; [now apply digit_plain|repeat constructor; discriminate]. }
  rewrite Et, IH by assumption. destruct (halve_all ss) as [ts|]; [|reflexivity]. destruct (printf r); cbn [bind]; try reflexivity.
  cbn [combine listing]. unfold item. fold comma. rewrite <- !app_assoc. reflexivity.
Qed.
Lemma json_listing ss poss : ss <> [] -> length poss = length ss -> (forall j, j < length poss -> decimal (nth j poss []) j) ->
  exists v, is_json (bytes "{""suggestions"":[" ++ listing 0 (combine ss poss) ++ bytes "]}" ++ [10%N])%list v /\ suggestions ss v.
Proof.
  intros Hne Hl Hd. eexists. split; [|exists poss; split; [exact Hl|]; split; [exact Hd|reflexivity]].
  eexists. eexists. split; [apply ws_none|]. split.
  - cbn [bytes map list_ascii_of_string app]. apply v_obj. eapply me_last; [apply ws_none| |apply ws_none|apply ws_none| |apply ws_none].
    + apply (literal_chars (bytes "suggestions")). repeat constructor; discriminate.
    + apply v_arr. apply listing_elements; [|reflexivity|now apply digits_of_combine].
      destruct ss; [congruence|]. destruct poss; [discriminate|]. discriminate.
  - cbn. apply ws_some; [unfold is_ws; auto|]. apply ws_none.
Qed.
Lemma body_halved p rs : pool_results p = Ok rs -> rs <> [] -> exists data, body p = Ok data /\
  (forall texts, Forall2 halved (map snd rs) texts -> exists out v, printf data = Ok out /\ is_json out v /\ suggestions texts v) /\
  ((forall texts, ~ Forall2 halved (map snd rs) texts) -> printf data = UB).
Proof.
  intros E Hne. destruct (body_ok p rs E Hne) as (poss & Hl & Hd & Eb). eexists. split; [exact Eb|].
  assert (Hp : Forall (Forall is_digit) poss). { apply Forall_forall. intros t Ht. destruct (In_nth _ _ [] Ht) as (j & Hj & <-). apply (Hd j). lia. }
  assert (Hl' : length poss = length (map snd rs)) by (now rewrite map_length).
  rewrite printf_app by (repeat constructor; discriminate). rewrite (printf_listing _ _ 0 poss Hl' Hp).
  split; [intros texts Ht|intros Hn].
  - pose proof (proj1 (halve_all_halved _ _) Ht) as Eh. rewrite Eh. rewrite printf_plain by (repeat constructor; discriminate). cbn [bind].
    assert (Hlt : length poss = length texts). { rewrite Hl'. clear -Ht. induction Ht; cbn; congruence. }
    destruct (json_listing texts poss) as (v & Hv & Hs); [destruct texts; [destruct rs; [congruence|inversion Ht]|discriminate]|exact Hlt|intros j Hj; apply Hd; lia|].
    eexists. exists v. split; [reflexivity|]. split; assumption.
  - destruct (halve_all (map snd rs)) as [ts|] eqn:Eh; [|reflexivity]. apply halve_all_halved in Eh. destruct (Hn ts Eh).
Qed.

Section Percent.
  Context (K : containers) (HK : containers_ok K) (c : collection) (Hwf : wf_collection c) (Hp : some_doc_positive c) (H0 : some_term_not_in_doc0 c).
  Lemma percent_served : exists x, ac1_build K (files_of c) = Ok x /\
    forall fuel q kv out s, query_fuel c < fuel -> state1_ok s -> web_answer c (q, kv) out -> reportable c out -> out <> [] ->
    (forall texts, Forall2 halved (map snd out) texts ->
      exists data v s', serve K x fuel q kv s = Ok (data, s') /\ is_json data v /\ suggestions texts v /\ state1_ok s') /\
    ((forall texts, ~ Forall2 halved (map snd out) texts) -> serve K x fuel q kv s = UB).
  Proof using HK Hwf Hp H0.
    destruct (auto1_exact K HK c Hwf Hp H0) as (x & E & H). exists x. split; [exact E|]. intros fuel q kv out s Hf Hs (t & k & Ht & Hk & ts & last & Hq & Ho) Hr Hne.
    cbn [fst snd rq_conj rq_k rq_text] in *. destruct (H fuel k t ts last s Hf Hq Hs) as (_ & out' & Ho' & Hok & _).
    assert (Eo : out' = out) by (eapply answer_unique; eassumption). subst out'. destruct (Hok Hr) as (s1 & E1 & E2 & Hs1).
    destruct (body_halved _ _ E2 Hne) as (data & Eb & B1 & B2).
    unfold serve, topcomp. destruct (counts_k kv k Hk) as (u & Eu & Ek). rewrite Eu, (heard_var q t Ht). cbn [bind]. rewrite Ek, E1. cbn [bind]. rewrite Eb. cbn [bind]. split.
    - intros texts Hx. destruct (B1 texts Hx) as (o & v & -> & Hj & Hv). exists o, v, s1. split; [reflexivity|]. auto.
    - intros Hx. now rewrite (B2 Hx).
  Qed.

  (** Every request, with or without percent signs. *)
  Lemma request_sent : exists x, ac1_build K (files_of c) = Ok x /\
    forall fuel q kv s, query_fuel c < fuel -> state1_ok s ->
    senseless kv /\ serve K x fuel q kv s = Exn \/
    ~ senseless kv /\ exists out, (forall o, web_answer c (q, kv) o <-> o = out) /\
      (sendable c out -> exists data s', serve K x fuel q kv s = Ok (data, s') /\ arrives c (q, kv) data /\ state1_ok s') /\
      (~ sendable c out -> serve K x fuel q kv s = UB).
  Proof using HK Hwf Hp H0.
    destruct percent_served as (x & E & H). destruct (session_ends K HK c Hwf Hp H0) as (x' & E' & H'). assert (x' = x) by congruence. subst x'.
    destruct (auto1_exact K HK c Hwf Hp H0) as (x' & E2 & H2). assert (x' = x) by congruence. subst x'.
    exists x. split; [exact E|]. intros fuel q kv s Hf Hs. destruct (counts_or_senseless kv) as [(k & Hk)|Hn]; [|left; split; [exact Hn|now apply senseless_stops]].
    right. split.
    { intros (t & -> & Hn & Hl & Hv). destruct Hk as [[[A|A] _]|(_ & _ & neg & v & A & _)]; [congruence|lia|exact (Hv neg v A)]. }
    destruct (heard_exists q) as (t & Ht). destruct (query_split_exists_unique t) as (ts & last & Hq & _).
    destruct (H2 fuel k t ts last s Hf Hq Hs) as (_ & out & Ho & Hok & _).
    assert (Hu : forall o, web_answer c (q, kv) o <-> o = out).
    { intros o. split.
      - intros (t' & k' & Ht' & Hk' & ts' & last' & Hq' & Ho'). cbn [fst snd rq_conj rq_k rq_text] in *.
        assert (t' = t) by (rewrite <- (heard_var q t' Ht'); exact (heard_var q t Ht)). assert (k' = k) by (eapply counts_unique; eassumption). subst t' k'.
        destruct (query_split_det _ _ _ _ _ Hq Hq') as [-> ->]. eapply answer_unique; eassumption.
      - intros ->. exists t, k. split; [exact Ht|]. split; [exact Hk|]. exists ts, last. split; [exact Hq|exact Ho]. }
    assert (Hw : web_answer c (q, kv) out) by (now apply Hu).
    exists out. split; [exact Hu|]. split.
    - intros [Hr (texts & Hx)]. destruct out as [|r out].
      + destruct (Hok Hr) as (s1 & E1 & F & Hs1). unfold serve, topcomp. destruct (counts_k kv k Hk) as (u & Eu & Ek). rewrite Eu, (heard_var q t Ht). cbn [bind]. rewrite Ek, E1. cbn [bind].
        rewrite (body_empty _ F). cbn [bind]. eexists. exists s1. split; [reflexivity|]. split; [|exact Hs1]. exists [], texts. split; [exact Hw|]. split; [exact Hx|]. split; [congruence|reflexivity].
      + destruct (proj1 (H fuel q kv _ s Hf Hs Hw Hr ltac:(discriminate)) texts Hx) as (data & v & s' & A & B & C & D). exists data, s'. split; [exact A|]. split; [|exact D].
        exists (r :: out), texts. split; [exact Hw|]. split; [exact Hx|]. split; [intros _; exists v; split; assumption|discriminate].
    - intros Hn. assert (Hub : serve K x fuel q kv s <> UB -> False).
      { intros Hne. apply Hne. apply (H' fuel q kv out s Hf Hs Hw). intros Hr. apply Hne. destruct out as [|r out]; [destruct Hn; split; [exact Hr|exists []; constructor]|].
        apply (proj2 (H fuel q kv _ s Hf Hs Hw Hr ltac:(discriminate))). intros texts Hx. apply Hn. split; [exact Hr|now exists texts]. }
      destruct (serve K x fuel q kv s); [destruct Hub; discriminate|destruct Hub; discriminate|reflexivity|destruct Hub; discriminate].
  Qed.
  Lemma session_sent : exists x, ac1_build K (files_of c) = Ok x /\
    forall fuel rs s, query_fuel c < fuel -> state1_ok s ->
    Forall (fun r => ~ senseless (snd r) /\ forall out, web_answer c r out -> sendable c out) rs ->
    exists datas s', serve_all K x fuel rs s = Ok (datas, s') /\ Forall2 (arrives c) rs datas /\ state1_ok s'.
  Proof using HK Hwf Hp H0.
    destruct request_sent as (x & E & H). exists x. split; [exact E|]. intros fuel rs s Hf Hs Hrs. revert s Hs.
    induction Hrs as [|[q kv] rs [Hk Hr] _ IH]; intros s Hs; [exists [], s; split; [reflexivity|split; [constructor|exact Hs]]|].
    destruct (H fuel q kv s Hf Hs) as [[Hk' _]|(_ & out & Hu & Hok & _)]; [now destruct Hk|].
    destruct (Hok (Hr out (proj2 (Hu out) eq_refl))) as (data & s1 & E1 & Ha & Hs1). destruct (IH s1 Hs1) as (datas & s' & E2 & F & Hs').
    exists (data :: datas), s'. cbn [serve_all]. rewrite E1. cbn [bind]. rewrite E2. split; [reflexivity|]. split; [constructor; assumption|exact Hs'].
  Qed.
End Percent.
