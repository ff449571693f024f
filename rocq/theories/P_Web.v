(** The response of /topcomp. *)
From Coq Require Import String.
From Verif Require Import Base M_Trie M_Containers M_Auto M_Auto1 S_Json M_Text M_Web.
Local Open Scope nat_scope.

(** * Strings *)
Lemma hex_hex_digit v : (v < 16)%N -> hex (hex_digit v) = Some v.
Proof.
  intros H. unfold hex_digit, hex. destruct (N.ltb_spec v 10).
  - replace ((48 <=? 48 + v) && (48 + v <=? 57))%N with true by (symmetry; lia). f_equal. lia.
  - replace ((48 <=? 87 + v) && (87 + v <=? 57))%N with false by (symmetry; lia).
    replace ((65 <=? 87 + v) && (87 + v <=? 70))%N with false by (symmetry; lia).
    replace ((97 <=? 87 + v) && (87 + v <=? 102))%N with true by (symmetry; lia). f_equal. lia.
Qed.

Lemma escaped_small b : escaped b = true -> (b < 128)%N.
Proof. unfold escaped. lia. Qed.

Lemma escape_chars s : forall r, chars (escape_json s ++ 34%N :: r) s r.
Proof.
  induction s as [|b s IH]; intros r; cbn [escape_json app]; [constructor|]. rewrite <- app_assoc.
  destruct (escaped b) eqn:E.
  - cbn [app bytes map list_ascii_of_string]. change (b :: s) with ([b] ++ s).
    pose proof (escaped_small b E) as Hb. replace [b] with (utf8 b) by (unfold utf8; destruct (N.ltb_spec b 128); [reflexivity|lia]).
    apply ch_unicode; [|lia|apply IH].
    assert (b / 16 < 16)%N by (apply N.div_lt_upper_bound; lia). assert (b mod 16 < 16)%N by (apply N.mod_lt; lia).
    exists 0%N, 0%N, (b / 16)%N, (b mod 16)%N. rewrite !hex_hex_digit by assumption. repeat split.
    pose proof (N.div_mod' b 16). lia.
  - cbn [app]. unfold escaped in E. apply ch_plain; [lia|lia|lia|apply IH].
Qed.

(** * Positions *)
Definition dec_val (t : list N) (v : N) : N := fold_left (fun v b => 10 * v + (b - 48))%N t v.
Lemma to_string_loop_ok fuel : forall v acc, (v < 2 ^ N.of_nat fuel)%N -> (0 < fuel) -> Forall is_digit acc ->
  exists t, to_string_loop fuel v acc = Ok (t ++ acc) /\ t <> [] /\ Forall is_digit t /\ ((v <> 0)%N -> hd 0%N t <> 48%N) /\ dec_val t 0 = v.
Proof.
  induction fuel as [|fuel IH]; intros v acc Hv Hf Hacc; [lia|]. cbn [to_string_loop].
  assert (Hm : (v mod 10 < 10)%N) by (apply N.mod_lt; lia). pose proof (N.div_mod' v 10) as Hd.
  assert (Hdig : is_digit (48 + v mod 10)) by (unfold is_digit; lia).
  destruct (N.eqb_spec (v / 10) 0) as [E|E].
  - exists [(48 + v mod 10)%N]. split; [reflexivity|]. split; [discriminate|]. split; [repeat constructor; apply Hdig|].
    cbn [hd dec_val fold_left]. rewrite E in Hd. lia.
  - assert (Hv' : (v / 10 < 2 ^ N.of_nat fuel)%N).
    { apply N.div_lt_upper_bound; [lia|]. rewrite Nat2N.inj_succ, N.pow_succ_r' in Hv. lia. }
    destruct fuel as [|fuel']; [change (2 ^ N.of_nat 0)%N with 1%N in Hv'; lia|].
    destruct (IH (v / 10)%N ((48 + v mod 10)%N :: acc) Hv' ltac:(lia)) as (t & Et & Hne & Ht & Hh & Hval); [constructor; assumption|].
    exists (t ++ [(48 + v mod 10)%N]). rewrite Et, <- app_assoc. split; [reflexivity|]. split; [destruct t; discriminate|].
    split; [apply Forall_app; split; [assumption|repeat constructor; apply Hdig]|].
    split; [intros _; destruct t as [|x t]; [congruence|]; cbn [app hd]; apply (Hh E)|].
    unfold dec_val in *. rewrite fold_left_app. cbn [fold_left]. rewrite Hval. lia.
Qed.
Lemma to_string_ok i : exists t, to_string (N.of_nat i) = Ok t /\ decimal t i.
Proof.
  destruct (to_string_loop_ok (S (N.to_nat (N.log2 (N.of_nat i)))) (N.of_nat i) []) as (t & E & Hne & Ht & Hh & Hv); [|lia|constructor|].
  - rewrite Nat2N.inj_succ, N2Nat.id. destruct (N.eq_dec (N.of_nat i) 0) as [->|]; [reflexivity|]. apply N.log2_spec. lia.
  - exists t. unfold to_string. rewrite E, app_nil_r. split; [reflexivity|]. split; [now split|]. split; [intros; apply Hh; lia|exact Hv].
Qed.
Lemma digits_chars t r : Forall is_digit t -> chars (t ++ 34%N :: r) t r.
Proof. induction 1 as [|b t H _ IH]; cbn [app]; [constructor|]. unfold is_digit in H. apply ch_plain; [lia|lia|lia|exact IH]. Qed.

(** * The body *)
Definition item (s t : list N) : list N :=
  (bytes "{""value"":""" ++ escape_json s ++ bytes """," ++ bytes """data"":""" ++ t ++ bytes """}")%list.
Definition item_json (s t : list N) : json := JObj [(bytes "value", JStr s); (bytes "data", JStr t)].
Lemma literal_chars s r : Forall (fun b => (32 <= b /\ b <> 34 /\ b <> 92)%N) s -> chars (s ++ 34%N :: r) s r.
Proof. induction 1 as [|b t H _ IH]; cbn [app]; [constructor|]. apply ch_plain; [lia|lia|lia|exact IH]. Qed.

Lemma item_value s t r : Forall is_digit t -> value (item s t ++ r) (item_json s t) r.
Proof.
  intros Ht. unfold item, item_json. rewrite <- !app_assoc. cbn [bytes map list_ascii_of_string app]. apply v_obj.
  eapply me_more; [apply ws_none| |apply ws_none|apply ws_none| |apply ws_none|].
  - apply (literal_chars (bytes "value")). repeat constructor; discriminate.
  - apply v_str. apply escape_chars.
  - eapply me_last; [apply ws_none| |apply ws_none|apply ws_none| |apply ws_none].
    + apply (literal_chars (bytes "data")). repeat constructor; discriminate.
    + apply v_str. now apply digits_chars.
Qed.

(** The results [i], [i+1], ... of the pool. *)
Fixpoint listing (i : nat) (l : list (list N * list N)) : list N :=
  match l with
  | [] => []
  | (s, t) :: l' => (if 0 <? i then bytes "," else []) ++ item s t ++ listing (i + 1) l'
  end.
Lemma entries_ok p n : forall i rs, map_res (pool_get p) (seq i n) = Ok rs ->
  exists poss, length poss = n /\ (forall j, j < n -> decimal (nth j poss []) (i + j)) /\
    entries p n i = Ok (listing i (combine (map snd rs) poss)).
Proof.
  induction n as [|n IH]; intros i rs E; cbn [seq map_res entries] in *.
  - injection E as <-. exists []. repeat split; intros; lia.
  - destruct (pool_get p i) as [[score s]| | |] eqn:Eg; cbn [bind] in *; try discriminate.
    destruct (map_res (pool_get p) (seq (S i) n)) as [rs'| | |] eqn:Er; cbn [bind] in E; try discriminate. injection E as <-.
    destruct (to_string_ok i) as (t & Et & Ht). rewrite Et. cbn [bind].
    destruct (IH (S i) rs' Er) as (poss & Hl & Hd & Ee). exists (t :: poss). split; [cbn; lia|]. split.
    + intros [|j] Hj; cbn [nth]; [now rewrite Nat.add_0_r|]. replace (i + S j) with (S i + j) by lia. apply Hd. lia.
    + rewrite Nat.add_1_r, Ee. cbn [bind map snd combine listing]. unfold item. rewrite Nat.add_1_r, <- !app_assoc. reflexivity.
Qed.

Lemma listing_elements l : forall i r, l <> [] -> i = 0 -> Forall (fun '(s, t) => Forall is_digit t) l ->
  elements (listing i l ++ 93%N :: r) (map (fun '(s, t) => item_json s t) l) r.
Proof.
  destruct l as [|[s t] l]; intros i r Hne -> Hl; [congruence|]. clear Hne. cbn [listing Nat.ltb Nat.leb app].
  change (0 + 1) with 1. assert (Hi : 0 < 1) by lia. revert Hi. generalize 1. revert s t Hl r.
  induction l as [|[s' t'] l IH]; intros s t Hl r i Hi; inversion Hl as [|? ? Ht Hl']; subst; cbn [map listing]; rewrite <- !app_assoc.
  - eapply el_last; [apply ws_none|now apply item_value|]. apply ws_none.
  - eapply el_more; [apply ws_none|now apply item_value| |].
    + destruct (Nat.ltb_spec 0 i); [|lia]. cbn [bytes map list_ascii_of_string app]. apply ws_none.
    + rewrite app_assoc. apply IH; [assumption|lia].
Qed.

Lemma map_res_length {A B} (f : A -> res B) l : forall r, map_res f l = Ok r -> length r = length l.
Proof.
  induction l as [|x l IH]; intros r E; cbn [map_res] in E; [now injection E as <-|].
  destruct (f x); cbn [bind] in E; try discriminate. destruct (map_res f l); cbn [bind] in E; try discriminate. injection E as <-. cbn. now rewrite IH.
Qed.

Lemma body_ok p rs : pool_results p = Ok rs -> rs <> [] ->
  exists poss, length poss = length rs /\ (forall j, j < length rs -> decimal (nth j poss []) j) /\
    body p = Ok (bytes "{""suggestions"":[" ++ listing 0 (combine (map snd rs) poss) ++ bytes "]}" ++ [10%N])%list.
Proof.
  unfold pool_results, body. intros E Hne. destruct (p_offsets p) as [|o0 o]; [discriminate|].
  pose proof (map_res_length _ _ _ E) as Hl. rewrite seq_length in Hl.
  destruct o as [|o1 o]; [destruct rs; [congruence|discriminate]|]. rewrite Hl.
  destruct (entries_ok p _ 0 rs E) as (poss & H1 & H2 & ->). exists poss. split; [exact H1|]. split; [exact H2|]. reflexivity.
Qed.

Lemma digits_of_combine (ss poss : list (list N)) : (forall j, j < length poss -> decimal (nth j poss []) j) -> Forall (fun '(s, t) => Forall is_digit t) (combine ss poss).
Proof.
  intros H. apply Forall_forall. intros [s t] Hin. apply in_combine_r in Hin. destruct (In_nth _ _ [] Hin) as (j & Hj & <-).
  apply (H j Hj).
Qed.

Lemma body_json p rs : pool_results p = Ok rs -> rs <> [] ->
  exists data v, body p = Ok data /\ is_json data v /\ suggestions (map snd rs) v.
Proof.
  intros E Hne. destruct (body_ok p rs E Hne) as (poss & Hl & Hd & Eb). eexists. eexists. split; [exact Eb|].
  rewrite <- Hl in Hd. split; [|exists poss; rewrite map_length; split; [exact Hl|]; split; [exact Hd|reflexivity]].
  eexists. eexists. split; [apply ws_none|]. split.
  - cbn [bytes map list_ascii_of_string app]. apply v_obj. eapply me_last; [apply ws_none| |apply ws_none|apply ws_none| |apply ws_none].
    + apply (literal_chars (bytes "suggestions")). repeat constructor; discriminate.
    + apply v_arr. apply listing_elements; [|reflexivity|now apply digits_of_combine].
      destruct rs; [congruence|]. destruct poss; [discriminate|]. discriminate.
  - cbn. apply ws_some; [unfold is_ws; auto|]. apply ws_none.
Qed.

(** * printf *)
Definition plain (b : N) : Prop := b <> 0%N /\ b <> 37%N.
Lemma printf_plain s : Forall plain s -> printf s = Ok s.
Proof.
  induction 1 as [|b s (H0 & H37) _ IH]; cbn [printf]; [reflexivity|].
  destruct (N.eqb_spec b 0); [congruence|]. destruct (N.eqb_spec b 37); [congruence|]. now rewrite IH.
Qed.
Lemma escape_plain s : ~ In 37%N s -> Forall plain (escape_json s).
Proof.
  induction s as [|b s IH]; intros H; cbn [escape_json]; [constructor|]. apply Forall_app. split.
  - destruct (escaped b) eqn:E.
    + apply Forall_app. split; [repeat constructor; discriminate|]. unfold plain, hex_digit.
      repeat constructor; match goal with |- context[if ?c then _ else _] => destruct c end; lia.
    + repeat constructor; [unfold escaped in E; lia|]. intros ->. apply H. now left.
  - apply IH. intros Hi. apply H. now right.
Qed.
Lemma digit_plain t : Forall is_digit t -> Forall plain t.
Proof. intros H. eapply Forall_impl; [|exact H]. unfold is_digit, plain. cbn. lia. Qed.
Lemma listing_plain l : forall i, Forall (fun '(s, t) => Forall is_digit t) l -> Forall (fun '(s, t) => ~ In 37%N s) l -> Forall plain (listing i l).
Proof.
  induction l as [|[s t] l IH]; intros i Ht Hs; cbn [listing]; [constructor|]. inversion Ht; subst. inversion Hs; subst.
  apply Forall_app. split; [destruct (0 <? i); repeat constructor; discriminate|]. apply Forall_app. split; [|now apply IH].
  unfold item. repeat (apply Forall_app; split); try (repeat constructor; discriminate); [now apply escape_plain|now apply digit_plain].
Qed.
Lemma body_printf p rs data : pool_results p = Ok rs -> rs <> [] -> body p = Ok data -> Forall (fun r => ~ In 37%N (snd r)) rs -> printf data = Ok data.
Proof.
  intros E Hne Eb Hs. destruct (body_ok p rs E Hne) as (poss & Hl & Hd & Eb'). assert (Ed : data = (bytes "{""suggestions"":[" ++ listing 0 (combine (map snd rs) poss) ++ bytes "]}" ++ [10%N])%list) by congruence. rewrite Ed. clear Ed Eb Eb'.
  apply printf_plain. rewrite <- Hl in Hd.
  repeat (apply Forall_app; split); try (repeat constructor; discriminate).
  apply listing_plain; [now apply digits_of_combine|]. apply Forall_forall. intros [s t] Hin. apply in_combine_l in Hin.
  apply in_map_iff in Hin as (r & <- & Hr). rewrite Forall_forall in Hs. now apply Hs.
Qed.

(** * UTF-8 *)
Lemma utf8_app s t : utf8_text s -> utf8_text t -> utf8_text (s ++ t).
Proof. intros H Ht. induction H; cbn [app]; [assumption|now constructor..]. Qed.
Lemma utf8_ascii s : Forall (fun b => (b < 128)%N) s -> utf8_text s.
Proof. induction 1; [constructor|now constructor]. Qed.
Lemma not_escaped b : (128 <= b)%N -> escaped b = false.
Proof. unfold escaped. lia. Qed.
Lemma escape_utf8 s : utf8_text s -> utf8_text (escape_json s).
Proof.
  induction 1; cbn [escape_json]; [constructor| | | |]; unfold cont in *.
  - apply utf8_app; [|assumption]. apply utf8_ascii. destruct (escaped a) eqn:E; [|now repeat constructor].
    pose proof (escaped_small a E). apply Forall_app. split; [repeat constructor|].
    assert (a / 16 < 16)%N by (apply N.div_lt_upper_bound; lia). assert (a mod 16 < 16)%N by (apply N.mod_lt; lia).
    unfold hex_digit. repeat constructor; match goal with |- context[if ?c then _ else _] => destruct c end; lia.
  - rewrite !not_escaped by lia. cbn [app]. now apply u_2.
  - rewrite !not_escaped by lia. cbn [app]. now apply u_3.
  - rewrite !not_escaped by lia. cbn [app]. now apply u_4.
Qed.
Lemma body_utf8 p rs data : pool_results p = Ok rs -> rs <> [] -> body p = Ok data -> Forall (fun r => utf8_text (snd r)) rs -> utf8_text data.
Proof.
  intros E Hne Eb Hs. destruct (body_ok p rs E Hne) as (poss & Hl & Hd & Eb'). assert (Ed : data = (bytes "{""suggestions"":[" ++ listing 0 (combine (map snd rs) poss) ++ bytes "]}" ++ [10%N])%list) by congruence. rewrite Ed. clear Ed Eb Eb'.
  rewrite <- Hl in Hd. pose proof (digits_of_combine (map snd rs) poss Hd) as Hdig.
  assert (Hu : Forall (fun '(s, t) => utf8_text s) (combine (map snd rs) poss)).
  { apply Forall_forall. intros [s t] Hin. apply in_combine_l in Hin. apply in_map_iff in Hin as (r & <- & Hr).
    rewrite Forall_forall in Hs. now apply Hs. }
  assert (HL : forall l i, Forall (fun '(s, t) => Forall is_digit t) l -> Forall (fun '(s, t) => utf8_text s) l -> utf8_text (listing i l)).
  { clear. induction l as [|[s t] l IH]; intros i Ht Hs; cbn [listing]; [constructor|]. inversion Ht; subst. inversion Hs; subst.
    apply utf8_app; [destruct (0 <? i); apply utf8_ascii; repeat constructor|]. apply utf8_app; [|now apply IH].
    unfold item. repeat apply utf8_app; try (apply utf8_ascii; repeat constructor; fail); [now apply escape_utf8|].
    apply utf8_ascii. eapply Forall_impl; [|eassumption]. unfold is_digit. cbn. lia. }
  repeat apply utf8_app; try (apply utf8_ascii; repeat constructor; fail). now apply HL.
Qed.

(** * Requests *)
Lemma skip_spaces_digits s : Forall is_digit s -> skip_spaces s = s.
Proof. intros H. destruct H as [|b s Hb _]; [reflexivity|]. cbn [skip_spaces]. unfold is_digit in Hb. unfold is_space. destruct (_ || _) eqn:E; [lia|reflexivity]. Qed.
Lemma read_digits_ok s : forall v, Forall is_digit s -> read_digits s v = dec_val s v.
Proof.
  induction s as [|b s IH]; intros v H; [reflexivity|]. inversion H as [|? ? Hb Hs]; subst. cbn [read_digits dec_val fold_left]. unfold is_digit in Hb.
  unfold isdigit. destruct (_ && _) eqn:E; [apply IH; assumption|lia].
Qed.
Lemma stoull_ok t k : decimal t k -> (N.of_nat k < 18446744073709551616)%N -> stoull t = Ok (N.of_nat k).
Proof.
  intros ((Hne & Hd) & _ & Hv) Hk. unfold stoull. rewrite skip_spaces_digits by assumption. destruct t as [|b t]; [congruence|].
  inversion Hd as [|? ? Hb _]; subst. unfold is_digit in Hb. destruct (N.eqb_spec b 45); [lia|]. destruct (N.eqb_spec b 43); [lia|].
  assert (Hi : isdigit b = true) by (unfold isdigit; lia). rewrite Hi, read_digits_ok by assumption. unfold dec_val. rewrite Hv.
  destruct (N.ltb_spec (N.of_nat k) 18446744073709551616); [reflexivity|lia].
Qed.

(** * The empty result *)
Lemma ws_head b s r : ws (b :: s) r -> ~ is_ws b -> r = b :: s.
Proof. intros H Hb. inversion H; subst; [reflexivity|contradiction]. Qed.
Ltac not_ws := let H := fresh in intros [H|[H|[H|H]]]; vm_compute in H; discriminate H.
Lemma literal_end s r d r' : Forall (fun b => (b <> 34 /\ b <> 92)%N) s -> chars (s ++ 34%N :: r) d r' -> d = s /\ r' = r.
Proof.
  intros Hs. revert d. induction Hs as [|b s (H1 & H2) _ IH]; intros d H; cbn [app] in H.
  - inversion H; subst; [auto|congruence].
  - inversion H as [|? ? d' ? _ _ _ Hc| | |]; subst; try congruence. destruct (IH _ Hc) as (-> & ->). auto.
Qed.
Lemma number_head t : number t -> exists b t', t = b :: t' /\ (b = 45 \/ 48 <= b <= 57)%N.
Proof.
  intros (sign & int & frac & exp & -> & Hs & Hi & _). destruct Hs as [->| ->].
  - destruct Hi as [->|(b & ds & -> & Hb & _)]; cbn; eexists; eexists; (split; [reflexivity|lia]).
  - cbn. eexists. eexists. split; [reflexivity|lia].
Qed.
Lemma value_string s v r : value (34%N :: s) v r -> exists d, v = JStr d /\ chars s d r.
Proof.
  intros H. inversion H as [| | |t r' Ht Et|s' d r' Hc| | | |]; subst; try (cbn in *; discriminate).
  - destruct (number_head t Ht) as (b & t' & -> & Hb). injection Et as -> _. lia.
  - eauto.
Qed.
Lemma value_array s v r : value (91%N :: s) v r -> ws s (93%N :: r) \/ exists l, elements s l r.
Proof.
  intros H. inversion H as [| | |t r' Ht Et|s' d r' Hc| | | |]; subst; try (cbn in *; discriminate).
  - destruct (number_head t Ht) as (b & t' & -> & Hb). injection Et as -> _. lia.
  - auto.
  - eauto.
Qed.
Lemma value_object s v r : value (123%N :: s) v r -> ws s (125%N :: r) \/ exists l, members s l r.
Proof.
  intros H. inversion H as [| | |t r' Ht Et|s' d r' Hc| | | |]; subst; try (cbn in *; discriminate).
  - destruct (number_head t Ht) as (b & t' & -> & Hb). injection Et as -> _. lia.
  - auto.
  - eauto.
Qed.

(** An array whose first element is the string "value" followed by a colon. *)
Lemma bad_array s v r : ~ value (bytes "[""value"":" ++ s) v r.
Proof.
  intros H. apply (value_array (bytes """value"":" ++ s)) in H. destruct H as [H|(l & H)].
  - apply ws_head in H; [discriminate|not_ws].
  - assert (Hx : forall s1 w s2, ws (bytes """value"":" ++ s) s1 -> value s1 w s2 -> s2 = (58%N :: s)).
    { intros s1 w s2 H1 H2. apply ws_head in H1; [|not_ws]. subst. apply value_string in H2. destruct H2 as (d & -> & H2).
      apply (literal_end (bytes "value") (58%N :: s)) in H2; [tauto|repeat constructor; discriminate]. }
    inversion H as [? s1 w s2 ? H1 H2 H3|? s1 w s2 s3 ? ? H1 H2 H3 H4]; subst.
    + rewrite (Hx _ _ _ H1 H2) in H3. apply ws_head in H3; [discriminate|not_ws].
    + rewrite (Hx _ _ _ H1 H2) in H3. apply ws_head in H3; [discriminate|not_ws].
Qed.
Lemma empty_body_bad v : ~ is_json (bytes "{""suggestions"":[""value"":"""",""data"":""""]}" ++ [10%N]) v.
Proof.
  intros (s1 & s2 & H1 & H2 & _). apply ws_head in H1; [|not_ws]. subst.
  set (tl := (bytes """"",""data"":""""]}" ++ [10%N])%list).
  apply (value_object (bytes """suggestions"":[""value"":" ++ tl)%list) in H2. destruct H2 as [H|(l & H)].
  - apply ws_head in H; [discriminate|not_ws].
  - assert (Hx : forall t1 k t2 t3 t4 w t5, ws (bytes """suggestions"":[""value"":" ++ tl) (34%N :: t1) -> chars t1 k t2 -> ws t2 (58%N :: t3) -> ws t3 t4 ->
      value t4 w t5 -> False).
    { intros t1 k t2 t3 t4 w t5 A1 A2 A3 A4 A5. apply ws_head in A1; [|not_ws].
      assert (E1 : t1 = (bytes "suggestions" ++ 34%N :: (bytes ":[""value"":" ++ tl))%list) by (injection A1 as ->; reflexivity). rewrite E1 in A2.
      apply literal_end in A2; [|repeat constructor; discriminate]. destruct A2 as (_ & ->). apply ws_head in A3; [|not_ws].
      assert (E3 : t3 = (bytes "[""value"":" ++ tl)%list) by (injection A3 as ->; reflexivity). rewrite E3 in A4.
      apply ws_head in A4; [|not_ws]. rewrite A4 in A5. exact (bad_array _ _ _ A5). }
    inversion H; subst; eapply Hx; eassumption.
Qed.

Lemma decimal_unique t i j : decimal t i -> decimal t j -> i = j.
Proof. intros (_ & _ & A) (_ & _ & B). lia. Qed.
