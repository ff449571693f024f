(** preprocess.sh followed by the test of locate_prefix. *)
From Coq Require Import Permutation.
From Verif Require Import Base S_Python S_Order P_Order S_Vocab S_Text S_Parse S_Collection S_Found S_Files S_Tools S_Json S_Prep S_Filter S_TestPrefix S_PrepTest.
From Verif Require Import M_Prep M_Filter M_PrepTest P_PrepText P_PrepDict P_Prep P_PrepEnd P_Filter.
Local Open Scope nat_scope.
Section Python.
Context {py : python}.

Lemma blank32 : blank 32.
Proof. unfold blank, white_space. destruct py; repeat split; try discriminate; lia. Qed.
Lemma row_gap b ws l : blank b -> row ws l -> row ws (b :: l).
Proof.
  intros Hb H. destruct H as [gap Hg|gap w ws text Hg Hw Ht Hr].
  - apply row_end. now constructor.
  - change (b :: gap ++ w ++ text) with ((b :: gap) ++ w ++ text). apply row_word; auto.
Qed.
Lemma row_join ws : Forall is_word ws -> row ws (join ws).
Proof.
  induction 1 as [|w ws Hw Hws IH]; [apply row_end; constructor|]. cbn [join]. destruct ws as [|v ws].
  - pose proof (row_word [] w [] [] (Forall_nil _) Hw (or_introl eq_refl) IH) as H. cbn [app] in H. now rewrite app_nil_r in H.
  - change (w ++ 32%N :: join (v :: ws)) with ([] ++ w ++ (32%N :: join (v :: ws))). apply row_word; auto.
    + right. exists 32%N, (join (v :: ws)). split; [reflexivity|exact blank32].
    + apply row_gap; [exact blank32|exact IH].
Qed.
Lemma numeral_word w v : numeral w v -> is_word w.
Proof.
  intros (Hn & Hd & _). split; [exact Hn|]. eapply Forall_impl; [|exact Hd]. cbn beta. intros b Hb. unfold letter, characters, white_space.
  split; [destruct py; lia|]. split; [lia|]. destruct py; [lia|]. cbn [In]. lia.
Qed.
Lemma usual_is_input es input : valid_input es -> usual_input es input -> is_input es input.
Proof.
  intros Hv (ids & Hids & ->). exists ids. split; [exact Hids|]. pose proof (vi_words es Hv) as Hw. clear Hv.
  revert ids Hids; induction Hw as [|e es (He & Hws & _) Hes IH]; intros ids Hids; inversion Hids as [|id x ids' xs Hid Hrest]; subst; [constructor|].
  cbn [combine map flat_map fst snd].
  replace ((id ++ 32%N :: join (snd e) ++ [10%N]) ++ flat_map (fun p => fst p ++ 32%N :: join (snd (snd p)) ++ [10%N]) (combine ids' es))
    with ((id ++ 32%N :: join (snd e)) ++ [10%N] ++ flat_map (fun p => fst p ++ 32%N :: join (snd (snd p)) ++ [10%N]) (combine ids' es)).
  - apply tab_line; [|now left|now apply IH]. change (id ++ 32%N :: join (snd e)) with ([] ++ id ++ (32%N :: join (snd e))). apply row_word; [constructor|exact (numeral_word _ _ Hid)| |].
    + right. exists 32%N, (join (snd e)). split; [reflexivity|exact blank32].
    + apply row_gap; [exact blank32|now apply row_join].
  - rewrite <- !app_assoc. cbn [app]. now rewrite <- !app_assoc.
Qed.

Lemma ended_lines ls : Forall one_line ls -> has_lines ls (flat_map (fun l => l ++ [10%N]) ls).
Proof. induction 1 as [|l ls H Hl IH]; [constructor|]. cbn [flat_map]. rewrite <- app_assoc. cbn [app]. now constructor. Qed.

(** The bytes of a text of words. *)
Lemma join_bytes ws : Forall is_word ws -> Forall (fun b => (32 <= b)%N) (encoded (join ws)).
Proof.
  intros H. rewrite <- encoded_join. induction H as [|w ws (_ & Hw) Hws IH]; [constructor|].
  assert (Hb : Forall (fun b => (32 <= b)%N) (encoded w)) by (eapply Forall_impl; [|exact (encoded_bytes w Hw)]; cbn beta; lia).
  cbn [map join] in *. destruct (map encoded ws); [exact Hb|]. apply Forall_app. split; [exact Hb|]. constructor; [lia|exact IH].
Qed.
Lemma join_len {A} (ws : list (list N)) (f : A) : length (join ws) <= length (concat ws) + length ws.
Proof. induction ws as [|w ws IH]; [cbn; lia|]. cbn [join concat length]. destruct ws; rewrite ?app_length; cbn [length] in *; rewrite ?app_length in *; lia. Qed.
Lemma join_nonempty ws : 0 < length ws -> Forall is_word ws -> encoded (join ws) <> [].
Proof.
  intros Hl H E. destruct H as [|w ws (Hn & _) Hws]; [cbn in Hl; lia|]. assert (Hj : 0 < length (join (w :: ws))).
  { destruct w as [|a w]; [congruence|]. cbn [join]. destruct ws; cbn; lia. }
  pose proof (length_encoded (join (w :: ws))) as H. rewrite E in H. cbn [length] in H. lia.
Qed.

Section Entries.
Variables (es : entries) (c : collection).
Hypothesis Hv : valid_input es.
Hypothesis D : describes es c.

Lemma described_plain : plain_terms c.
Proof using Hv D.
  apply Forall_forall. intros w Hw. apply (proj2 (ds_terms es c D)) in Hw as (v & (e & He & Hve) & ->).
  pose proof (vi_words es Hv) as H. rewrite Forall_forall in H. destruct (H e He) as (_ & Hws & _). rewrite Forall_forall in Hws. destruct (Hws v Hve) as (_ & Hl).
  eapply Forall_impl; [|exact (encoded_bytes v Hl)]. cbn beta. lia.
Qed.
Lemma entry_line e : In e es -> S_TestPrefix.query_line (encoded (join (snd e))) /\ one_line (encoded (join (snd e))).
Proof using Hv.
  intros He. pose proof (vi_words es Hv) as H. rewrite Forall_forall in H. destruct (H e He) as ((H1 & H2) & Hws & Hlen). pose proof (join_bytes _ Hws) as Hb. split; [split; [|split]|].
  - now apply join_nonempty.
  - rewrite <- encoded_join. pose proof (join_len (map encoded (snd e)) tt) as Hj. rewrite encoded_concat, map_length in Hj. lia.
  - eapply Forall_impl; [|exact Hb]. cbn beta. lia.
  - eapply Forall_impl; [|exact Hb]. cbn beta. lia.
Qed.
Lemma usual_collection_file input : usual_input es input -> collection_file c (encoded input).
Proof using Hv D.
  intros (ids & Hids & ->). exists (map (fun p => fst p ++ 32%N :: encoded (join (snd (snd p)))) (combine ids es)).
  assert (Hd : Forall2 (fun id e => Forall (fun b => 48 <= b <= 57)%N id) ids es).
  { revert Hids. generalize es. clear. induction ids as [|id ids IH]; intros [|e es] H; inversion H; subst; constructor; [|now apply IH]. match goal with Hn : numeral id _ |- _ => apply Hn end. }
  assert (Hl : Forall (fun e => one_line (encoded (join (snd e)))) es) by (apply Forall_forall; intros e He; now apply entry_line).
  pose proof (ds_comps es c D) as Hc. split.
  - assert (E : encoded (flat_map (fun p => fst p ++ 32%N :: join (snd (snd p)) ++ [10%N]) (combine ids es))
      = flat_map (fun l => l ++ [10%N]) (map (fun p => fst p ++ 32%N :: encoded (join (snd (snd p)))) (combine ids es))).
    { clear -Hd. induction Hd as [|id e ids es H Hd IH]; [reflexivity|]. cbn [combine map flat_map fst snd]. rewrite encoded_app, IH. f_equal.
      change (id ++ 32%N :: join (snd e) ++ [10%N]) with (id ++ [32%N] ++ join (snd e) ++ [10%N]). rewrite !encoded_app.
      rewrite (encoded_ascii id) by (eapply Forall_impl; [|exact H]; cbn beta; lia). rewrite (encoded_ascii [32%N]), (encoded_ascii [10%N]) by (repeat constructor).
      rewrite <- !app_assoc. reflexivity. }
    rewrite E. apply ended_lines. clear -Hd Hl. induction Hd as [|id e ids es H Hd IH]; [constructor|]. inversion Hl; subst. cbn [combine map fst snd]. constructor; [|now apply IH].
    apply Forall_app. split; [eapply Forall_impl; [|exact H]; cbn beta; lia|]. constructor; [discriminate|assumption].
  - clear Hl Hids. revert Hc. generalize (comps c). clear -Hd. induction Hd as [|id e ids es H Hd IH]; intros [|x xs] Hc; cbn [map] in Hc; try discriminate; [constructor|].
    injection Hc as Hx Hxs. cbn [combine map fst snd]. constructor; [|now apply IH]. exists id. split; [eapply Forall_impl; [|exact H]; cbn beta; lia|]. unfold text. now rewrite Hx, encoded_join.
Qed.

(** The lines of the files of queries. *)
Definition chosen_lines (chosen : list entries) (n : nat) : option (list (list N)) :=
  if (1 <=? n) && (n <=? 6) then Some (map (fun e => encoded (join (snd e))) (nth (n - 1) chosen [])) else None.
Lemma chosen_files n chosen max : chooses n es chosen -> query_files max (chosen_lines chosen) (named (map one_per_line chosen)).
Proof using Hv.
  intros Hc i. unfold chosen_lines, named. destruct ((1 <=? i) && (i <=? 6)); [|exact I].
  assert (Hin : forall e, In e (nth (i - 1) chosen []) -> In e es) by (intros e He; exact (proj1 (ch_from _ _ _ Hc (i - 1) e He))). split.
  - rewrite encode_encoded. change (nth (i - 1) (map one_per_line chosen) []) with (nth (i - 1) (map one_per_line chosen) (one_per_line [])). rewrite map_nth. revert Hin. generalize (nth (i - 1) chosen []). intros l Hin. unfold one_per_line.
    assert (E : encoded (flat_map (fun e => join (snd e) ++ [10%N]) l) = flat_map (fun l => l ++ [10%N]) (map (fun e => encoded (join (snd e))) l)).
    { clear. induction l as [|e l IH]; [reflexivity|]. cbn [map flat_map]. rewrite !encoded_app, IH. rewrite (encoded_ascii [10%N]) by (repeat constructor). reflexivity. }
    rewrite E. apply ended_lines. apply Forall_map, Forall_forall. intros e He. now apply entry_line, Hin.
  - apply Forall_forall. intros q Hq. assert (Hq' : In q (map (fun e => encoded (join (snd e))) (nth (i - 1) chosen []))) by (rewrite <- (firstn_skipn max); apply in_or_app; now left).
    apply in_map_iff in Hq' as (e & <- & He). now apply entry_line, Hin.
Qed.
Lemma chosen_completions n chosen i ls q : chooses n es chosen -> chosen_lines chosen i = Some ls -> In q ls -> exists ids, In ids (comps c) /\ q = text c ids.
Proof using D.
  intros Hc. unfold chosen_lines. destruct ((1 <=? i) && (i <=? 6)); [|discriminate]. intros E. injection E as <-. intros Hq. apply in_map_iff in Hq as ((d & ws) & <- & He).
  destruct (entry_doc es c D d ws (proj1 (ch_from _ _ _ Hc _ _ He))) as (ids & (j & _ & Hj) & E). exists ids. split; [exact (nth_error_In _ _ Hj)|]. unfold text. now rewrite E, encoded_join.
Qed.
Lemma short_first : wf_collection c -> starts_short es -> length (nth 0 (terms c) []) = 1 /\ nth 0 (comps c) [] = [1%N].
Proof using Hv D.
  intros W (d & w & es' & E & Hlen & Hfirst).
  assert (Hocc : S_Prep.occurs es w) by (exists (d, [w]); rewrite E; split; now left).
  assert (Hword : forall v, S_Prep.occurs es v -> Forall scalar v).
  { intros v (e & He & Hve). pose proof (vi_words es Hv) as H. rewrite Forall_forall in H. destruct (H e He) as (_ & Hws & _). rewrite Forall_forall in Hws. destruct (Hws v Hve) as (_ & Hl).
    apply letters_scalar. exact (Hws v Hve). }
  destruct (ds_terms es c D) as (Hsort & Hin).
  assert (H0 : nth 0 (terms c) [] = encoded w).
  { assert (Hw : In (encoded w) (terms c)) by (apply Hin; eauto). apply (In_nth _ _ []) in Hw as (i & Hi & Ei).
    destruct i as [|i]; [exact Ei|]. assert (Hlt : lex_lt (nth 0 (terms c) []) (nth (S i) (terms c) [])) by (apply (lex_sorted_nth (terms c)); [exact Hsort|lia]).
    assert (Hv0 : In (nth 0 (terms c) []) (terms c)) by (apply nth_In; lia). apply Hin in Hv0 as (v & Hov & Ev). rewrite Ei, Ev in Hlt.
    destruct (Hfirst v Hov) as [->|Hwv]; [exact Ev|]. exfalso. apply (lex_irrefl (encoded w)). eapply lex_trans; [|exact Hlt]. apply encoded_lt; auto. }
  split; [now rewrite H0|]. pose proof (ds_comps es c D) as Hc. rewrite E in Hc. cbn [map snd] in Hc.
  pose proof (wf_ids c W) as Hids. pose proof (proj2 (proj2 (wf_comps c W))) as Hpos. destruct (comps c) as [|x xs]; [discriminate|]. cbn [map] in Hc. injection Hc as Hx _. cbn [nth].
  destruct x as [|a x]; [discriminate|]. destruct x; [|discriminate]. unfold words_of in Hx. cbn [map] in Hx. injection Hx as Ha. f_equal.
  inversion Hids as [|? ? Hids1 _]; subst. inversion Hids1 as [|? ? Ha1 _]; subst. inversion Hpos as [|? ? (Hp & _) _]; subst. inversion Hp as [|? ? Hp1 _]; subst.
  unfold word in Ha. rewrite <- H0 in Ha. pose proof (lex_sorted_nth_inj (terms c) (N.to_nat a - 1) 0 [] Hsort) as Hinj. lapply Hinj; [|lia]. intros Hi2.
  first [specialize (Hi2 ltac:(lia) Ha)|specialize (Hi2 Ha)]. lia.
Qed.
End Entries.
End Python.
