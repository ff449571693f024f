(** Proofs: reading and writing of text by the preprocessing scripts. *)
From Verif Require Import Base S_Python S_Order S_Json S_Text S_Collection S_Prep M_Prep.
Local Open Scope nat_scope.
Section Python.
Context {py : python}.

Lemma py_space_white c : py_space c = true <-> white_space c.
Proof. unfold py_space, white_space. destruct py; cbn [In]; lia. Qed.
Lemma letter_space c : letter c -> py_space c = false.
Proof. intros (_ & _ & H). destruct (py_space c) eqn:E; [exfalso; apply H; now apply py_space_white|reflexivity]. Qed.
Lemma blank_space c : blank c -> py_space c = true.
Proof. intros (H & _). now apply py_space_white. Qed.
Lemma letter_eol c : letter c -> c <> 10%N /\ c <> 13%N.
Proof. intros ((H & _) & _). lia. Qed.
Lemma blank_eol c : blank c -> c <> 10%N /\ c <> 13%N.
Proof. intros (_ & H). exact H. Qed.
Lemma characters_le : (characters <= 1114112)%N.
Proof. unfold characters. destruct py; lia. Qed.
Lemma space32 : py_space 32 = true.
Proof. destruct py; reflexivity. Qed.
Definition no_eol (l : list N) : Prop := Forall (fun c => c <> 10%N /\ c <> 13%N) l.

(** ** Lines *)
Lemma newlines_app l : forall t, no_eol l -> newlines (l ++ t) = l ++ newlines t.
Proof.
  induction l as [|c l IH]; intros t H; [reflexivity|]. inversion H as [|? ? (H1 & H2) H']; subst. cbn [app newlines].
  destruct (N.eqb_spec c 13); [congruence|]. now rewrite IH.
Qed.
Lemma newlines_id l : no_eol l -> newlines l = l.
Proof. intros H. rewrite <- (app_nil_r l) at 1. rewrite newlines_app by exact H. now rewrite app_nil_r. Qed.
Lemma lines_nl l : forall t, Forall (fun c => c <> 10%N) l -> lines (l ++ 10%N :: t) = (l ++ [10%N]) :: lines t.
Proof.
  induction l as [|c l IH]; intros t H; [reflexivity|]. inversion H as [|? ? H1 H']; subst. cbn [app lines].
  destruct (N.eqb_spec c 10); [congruence|]. now rewrite IH.
Qed.
Lemma lines_last l : no_eol l -> l <> [] -> lines l = [l].
Proof.
  induction l as [|c l IH]; intros H Hl; [congruence|]. inversion H as [|? ? (H1 & H2) H']; subst. cbn [lines].
  destruct (N.eqb_spec c 10); [congruence|]. destruct l as [|d l]; [reflexivity|]. rewrite IH by (assumption || discriminate). reflexivity.
Qed.
Lemma rstrip_id l : no_eol l -> rstrip l = l.
Proof.
  induction l as [|c l IH]; intros H; [reflexivity|]. inversion H as [|? ? (H1 & H2) H']; subst. cbn [rstrip]. rewrite IH by assumption.
  destruct l; [|reflexivity]. destruct (N.eqb_spec c 10); [congruence|reflexivity].
Qed.
Lemma no_nl l : no_eol l -> Forall (fun c => c <> 10%N) l.
Proof. intros H. eapply Forall_impl; [|exact H]. intros c (H1 & _). exact H1. Qed.
Lemma rstrip_nl l : Forall (fun c => c <> 10%N) l -> rstrip (l ++ [10%N]) = l.
Proof.
  induction l as [|c l IH]; intros H; [reflexivity|]. inversion H as [|? ? H1 H']; subst. cbn [app rstrip]. rewrite IH by assumption.
  destruct l; [|reflexivity]. destruct (N.eqb_spec c 10); [congruence|reflexivity].
Qed.

(** Files the scripts write: lines ended by \n. *)
Lemma read_written ls : Forall no_eol ls -> read_lines (flat_map (fun l => l ++ NL) ls) = map (fun l => l ++ NL) ls.
Proof.
  induction ls as [|l ls IH]; intros H; [unfold read_lines; destruct py; reflexivity|]. inversion H as [|? ? H1 H2]; subst. cbn [flat_map map].
  unfold read_lines, NL in *. rewrite <- app_assoc. cbn [app]. destruct py; [rewrite lines_nl by (now apply no_nl); f_equal; now apply IH|].
  rewrite newlines_app by assumption. cbn [newlines]. cbn [N.eqb Pos.eqb]. rewrite lines_nl by now apply no_nl. f_equal. now apply IH.
Qed.

(** ** Words *)
Definition white_start (t : list N) : Prop := t = [] \/ exists b t', t = b :: t' /\ py_space b = true.
Lemma split_word w : forall cur t, Forall (fun c => py_space c = false) w -> white_start t -> cur ++ w <> [] ->
  split_from cur (w ++ t) = (cur ++ w) :: split_from [] t.
Proof.
  induction w as [|c w IH]; intros cur t Hw Ht Hc.
  - rewrite app_nil_r in *. cbn [app]. destruct Ht as [->|(b & t' & -> & Hb)]; cbn [split_from].
    + destruct cur; [congruence|reflexivity].
    + rewrite Hb. destruct cur; [congruence|reflexivity].
  - inversion Hw as [|? ? H1 H2]; subst. cbn [app split_from]. rewrite H1. rewrite IH; [now rewrite <- app_assoc|assumption|assumption|]. now rewrite <- app_assoc.
Qed.
Lemma split_gap gap : forall t, Forall (fun c => py_space c = true) gap -> split_from [] (gap ++ t) = split_from [] t.
Proof. induction gap as [|c gap IH]; intros t H; [reflexivity|]. inversion H as [|? ? H1 H2]; subst. cbn [app split_from]. rewrite H1. now apply IH. Qed.
Lemma split_row ws l : row ws l -> split l = ws.
Proof.
  unfold split. induction 1 as [gap Hg|gap w ws text Hg (Hw & Hl) Ht Hr IH].
  - rewrite <- (app_nil_r gap), split_gap; [reflexivity|]. eapply Forall_impl; [|exact Hg]. exact blank_space.
  - rewrite split_gap by (eapply Forall_impl; [|exact Hg]; exact blank_space). rewrite split_word; [cbn [app]; now rewrite IH| | |exact Hw].
    + eapply Forall_impl; [|exact Hl]. exact letter_space.
    + destruct Ht as [->|(b & t & -> & Hb)]; [now left|]. right. exists b, t. split; [reflexivity|now apply blank_space].
Qed.
Lemma row_eol ws l : row ws l -> no_eol l.
Proof.
  induction 1 as [gap Hg|gap w ws text Hg (Hw & Hl) Ht Hr IH].
  - eapply Forall_impl; [|exact Hg]. exact blank_eol.
  - apply Forall_app. split; [eapply Forall_impl; [|exact Hg]; exact blank_eol|]. apply Forall_app. split; [|exact IH].
    eapply Forall_impl; [|exact Hl]. exact letter_eol.
Qed.

Lemma split_end b t : py_space b = true -> forall cur, split_from cur (t ++ [b]) = split_from cur t.
Proof.
  intros Hb. induction t as [|c t IH]; intros cur; cbn [app split_from]; [rewrite Hb; destruct cur; reflexivity|]. destruct (py_space c); [|apply IH]. destruct cur; now rewrite IH.
Qed.
Lemma row_columns ws l : row ws l -> columns l = ws /\ columns (l ++ [10%N]) = ws /\ columns (l ++ [13; 10]%N) = ws.
Proof.
  intros Hr. pose proof (row_eol _ _ Hr) as Hn. unfold columns. rewrite rstrip_id by exact Hn. rewrite rstrip_nl by now apply no_nl. rewrite (split_row _ _ Hr). split; [reflexivity|]. split; [reflexivity|].
  replace (l ++ [13; 10]%N) with ((l ++ [13%N]) ++ [10%N]) by now rewrite <- app_assoc. rewrite rstrip_nl by (apply Forall_app; split; [now apply no_nl|repeat constructor; discriminate]).
  unfold split. rewrite split_end by (destruct py; reflexivity). exact (split_row _ _ Hr).
Qed.
Lemma read_last ws l : row ws l -> l <> [] -> read_lines l = [l].
Proof. intros Hr Hl. pose proof (row_eol _ _ Hr) as Hn. unfold read_lines. destruct py; rewrite ?newlines_id, lines_last by assumption; reflexivity. Qed.
Lemma read_line ws l e text : row ws l -> e = [10%N] \/ e = [13; 10]%N -> exists line, columns line = ws /\ read_lines (l ++ e ++ text) = line :: read_lines text.
Proof.
  intros Hr He. pose proof (row_eol _ _ Hr) as Hn. destruct (row_columns _ _ Hr) as (_ & H1 & H2). unfold read_lines. destruct py eqn:Epy.
  - exists (l ++ e). split; [destruct He as [->| ->]; assumption|]. destruct He as [->| ->]; cbn [app].
    + now rewrite lines_nl by now apply no_nl.
    + replace (l ++ 13%N :: 10%N :: text) with ((l ++ [13%N]) ++ 10%N :: text) by now rewrite <- app_assoc. rewrite lines_nl by (apply Forall_app; split; [now apply no_nl|repeat constructor; discriminate]). now rewrite <- app_assoc.
  - exists (l ++ [10%N]). split; [exact H1|]. rewrite newlines_app by exact Hn.
    assert (E : newlines (e ++ text) = 10%N :: newlines text) by (destruct He as [->| ->]; reflexivity). rewrite E. now rewrite lines_nl by now apply no_nl.
Qed.
Lemma read_nil : read_lines [] = [].
Proof. unfold read_lines. destruct py; reflexivity. Qed.
Lemma table_columns rows text : table rows text -> map columns (read_lines text) = rows.
Proof.
  induction 1 as [|ws l Hr Hl|ws l e rows text Hr He Ht IH].
  - now rewrite read_nil.
  - rewrite (read_last _ _ Hr Hl). cbn [map]. now rewrite (proj1 (row_columns _ _ Hr)).
  - destruct (read_line ws l e text Hr He) as (line & Hc & ->). cbn [map]. now rewrite Hc, IH.
Qed.

(** Words the scripts write, separated by single spaces. *)
Definition printable (w : list N) : Prop := w <> [] /\ Forall (fun c => py_space c = false) w.
Lemma split_join ws : Forall printable ws -> split (join_space ws) = ws.
Proof.
  unfold split. induction ws as [|w ws IH]; intros H; [reflexivity|]. inversion H as [|? ? (Hw & Hl) H']; subst. cbn [join_space]. destruct ws as [|v ws].
  - rewrite <- (app_nil_r w) at 1. rewrite split_word; [reflexivity|assumption|now left|exact Hw].
  - rewrite split_word; [|exact Hl|right; eexists _, _; split; [reflexivity|exact space32]|exact Hw]. cbn [app]. f_equal. cbn [split_from]. rewrite space32. now apply IH.
Qed.
Lemma printable_eol w : printable w -> no_eol w.
Proof.
  intros (_ & H). eapply Forall_impl; [|exact H]. intros c Hc. split; intros ->; destruct py; discriminate.
Qed.
Lemma join_eol ws : Forall no_eol ws -> no_eol (join_space ws).
Proof.
  induction ws as [|w ws IH]; intros H; [constructor|]. inversion H as [|? ? H1 H2]; subst. cbn [join_space]. destruct ws as [|v ws]; [assumption|].
  apply Forall_app. split; [assumption|]. constructor; [split; discriminate|]. now apply IH.
Qed.
Lemma columns_written ws : Forall printable ws -> columns (join_space ws ++ NL) = ws.
Proof.
  intros H. unfold columns, NL. rewrite rstrip_nl; [now apply split_join|]. apply no_nl, join_eol. eapply Forall_impl; [|exact H]. exact printable_eol.
Qed.
Lemma word_printable w : is_word w -> printable w.
Proof. intros (H & Hl). split; [exact H|]. eapply Forall_impl; [|exact Hl]. exact letter_space. Qed.

(** ** Numbers *)
Definition value (w : list N) : N := fold_left (fun v b => 10 * v + (b - 48))%N w 0%N.
Lemma fold_value w : forall v, (fold_left (fun v b => 10 * v + (b - 48)) w v = v * 10 ^ N.of_nat (length w) + value w)%N.
Proof.
  unfold value. induction w as [|b w IH]; intros v; [cbn; lia|]. cbn [fold_left length]. rewrite IH, (IH (10 * 0 + (b - 48))%N). rewrite Nat2N.inj_succ, N.pow_succ_r'. lia.
Qed.
Lemma digits_of_ok fuel : forall n acc, (n < 2 ^ N.of_nat fuel)%N -> 0 < fuel ->
  exists w, digits_of fuel n acc = w ++ acc /\ w <> [] /\ Forall (fun b => (48 <= b <= 57)%N) w /\ value w = n.
Proof.
  induction fuel as [|fuel IH]; intros n acc Hn Hf; [lia|]. cbn [digits_of]. pose proof (N.mod_lt n 10 ltac:(lia)) as Hm. pose proof (N.div_mod n 10 ltac:(lia)) as Hd.
  destruct (N.eqb_spec (n / 10) 0) as [E|E].
  - exists [(48 + n mod 10)%N]. split; [reflexivity|]. split; [discriminate|]. split; [repeat constructor; lia|]. unfold value. cbn [fold_left]. lia.
  - rewrite Nat2N.inj_succ, N.pow_succ_r' in Hn. assert (0 < fuel) by (destruct fuel; [cbn in Hn|]; lia).
    destruct (IH (n / 10)%N ((48 + n mod 10)%N :: acc)) as (w & Ew & Hw & Hdg & Hv); [lia|assumption|]. exists (w ++ [(48 + n mod 10)%N]).
    split; [rewrite Ew, <- app_assoc; reflexivity|]. split; [destruct w; discriminate|]. split; [apply Forall_app; split; [exact Hdg|repeat constructor; lia]|].
    unfold value in *. rewrite fold_left_app. cbn [fold_left]. rewrite Hv. lia.
Qed.
Lemma size_bound n : (n < 2 ^ N.of_nat (S (N.size_nat n)))%N.
Proof.
  assert (H : (n < 2 ^ N.of_nat (N.size_nat n))%N); [|rewrite Nat2N.inj_succ, N.pow_succ_r'; lia].
  replace (N.of_nat (N.size_nat n)) with (N.size n); [apply N.size_gt|]. destruct n as [|p]; [reflexivity|]. cbn [N.size N.size_nat].
  induction p as [p IH|p IH|]; cbn [Pos.size Pos.size_nat]; [| |reflexivity]; rewrite Nat2N.inj_succ, <- IH; lia.
Qed.
Lemma str_numeral n : numeral (str n) n.
Proof.
  unfold str. destruct (digits_of_ok (S (N.size_nat n)) n [] (size_bound n)) as (w & E & H1 & H2 & H3); [lia|]. rewrite E, app_nil_r. repeat split; assumption.
Qed.
Lemma numeral_printable w v : numeral w v -> printable w.
Proof. intros (H1 & H2 & _). split; [exact H1|]. eapply Forall_impl; [|exact H2]. unfold py_space. intros b Hb. cbn beta in Hb. destruct py; lia. Qed.
Lemma lstrip_printable w t : printable w -> lstrip (w ++ t) = w ++ t.
Proof. intros (H1 & H2). destruct w as [|c w]; [congruence|]. inversion H2 as [|? ? Hc _]; subst. cbn [app lstrip]. now rewrite Hc. Qed.
Lemma printable_rev w : printable w -> printable (rev w).
Proof.
  intros (H1 & H2). split; [intros E; apply H1; rewrite <- (rev_involutive w), E; reflexivity|]. now apply Forall_rev.
Qed.
Lemma int_numeral w v : numeral w v -> int w = Ok v.
Proof.
  intros Hn. pose proof (numeral_printable _ _ Hn) as Hp. unfold int, strip. pose proof (lstrip_printable w [] Hp) as E. rewrite app_nil_r in E. rewrite E.
  pose proof (lstrip_printable (rev w) [] (printable_rev _ Hp)) as E2. rewrite app_nil_r in E2. rewrite E2, rev_involutive. destruct Hn as (H1 & H2 & H3).
  destruct w as [|b w]; [congruence|]. assert (F : forallb (fun b => (48 <=? b) && (b <=? 57))%N (b :: w) = true).
  { apply forallb_forall. intros x Hx. rewrite Forall_forall in H2. specialize (H2 x Hx). cbn beta in H2. lia. }
  rewrite F. f_equal. exact H3.
Qed.
Lemma int_line w v : numeral w v -> int (w ++ NL) = Ok v.
Proof.
  intros Hn. rewrite <- (int_numeral w v Hn). unfold int. assert (E : strip (w ++ NL) = strip w); [|now rewrite E].
  pose proof (numeral_printable _ _ Hn) as Hp. unfold strip. rewrite lstrip_printable by exact Hp. pose proof (lstrip_printable w [] Hp) as E. rewrite app_nil_r in E. rewrite E.
  rewrite rev_app_distr. change (rev NL) with [10%N]. cbn [app lstrip]. replace (py_space 10) with true by (destruct py; reflexivity). reflexivity.
Qed.
Lemma str_inj a b : str a = str b -> a = b.
Proof. intros H. destruct (str_numeral a) as (_ & _ & Ha), (str_numeral b) as (_ & _ & Hb). congruence. Qed.
End Python.
