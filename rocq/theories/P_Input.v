(** Reading the input files. *)
From Verif Require Import Base M_Text M_Input S_Text.
Local Open Scope nat_scope.

Lemma is_space_white b : is_space b = true <-> white b.
Proof. unfold is_space, white. lia. Qed.
Lemma skip_white gap : forall s, Forall white gap -> skip_spaces (gap ++ s) = skip_spaces s.
Proof. induction gap as [|b gap IH]; intros s H; [reflexivity|]. inversion H; subst. cbn [app skip_spaces]. rewrite (proj2 (is_space_white b)) by assumption. now apply IH. Qed.
Lemma skip_solid w s : solid w -> skip_spaces (w ++ s) = w ++ s.
Proof.
  intros (Hne & H). destruct w as [|b w]; [congruence|]. inversion H; subst. cbn [app skip_spaces]. destruct (is_space b) eqn:E; [|reflexivity].
  apply is_space_white in E. contradiction.
Qed.
Lemma skip_all gap : Forall white gap -> skip_spaces gap = [].
Proof. intros H. rewrite <- (app_nil_r gap). now rewrite skip_white. Qed.

Definition starts_white (text : list N) : Prop := text = [] \/ exists b t, text = b :: t /\ white b.
Lemma span_digits_ok w : forall v text, Forall (fun b => (48 <= b <= 57)%N) w -> starts_white text ->
  span_digits (w ++ text) v = (fold_left (fun v b => 10 * v + (b - 48))%N w v, text).
Proof.
  induction w as [|b w IH]; intros v text H Ht; cbn [app fold_left].
  - destruct Ht as [->|(b & t & -> & Hb)]; [reflexivity|]. cbn [span_digits]. unfold white in Hb. unfold isdigit. destruct (_ && _) eqn:E; [lia|reflexivity].
  - inversion H; subst. cbn [span_digits]. unfold isdigit. destruct (_ && _) eqn:E; [now apply IH|lia].
Qed.
Lemma span_word_ok w : forall text, Forall (fun b => ~ white b) w -> starts_white text -> span_word (w ++ text) = (w, text).
Proof.
  induction w as [|b w IH]; intros text H Ht; cbn [app].
  - destruct Ht as [->|(b & t & -> & Hb)]; [reflexivity|]. cbn [span_word]. now rewrite (proj2 (is_space_white b)).
  - inversion H; subst. cbn [span_word]. destruct (is_space b) eqn:E; [apply is_space_white in E; contradiction|]. now rewrite IH.
Qed.

Lemma numeral_solid w v : numeral w v -> solid w.
Proof. intros (Hne & H & _). split; [exact Hne|]. eapply Forall_impl; [|exact H]. unfold white. cbn. lia. Qed.

(** The words [ws] remain to be read. *)
Definition before (st : stream) (ws : list (list N)) : Prop :=
  st_fail st = false /\ layout ws (st_rest st) /\ (st_eof st = true -> st_rest st = []).
Definition over (st : stream) : Prop := st_fail st = true /\ st_eof st = true.

Lemma before_open ws text : layout ws text -> before (open_file text) ws.
Proof. intros H. split; [reflexivity|]. split; [exact H|discriminate]. Qed.
Lemma before_more st w ws : before st (w :: ws) -> st_eof st = false.
Proof.
  intros (_ & H & He). destruct (st_eof st); [|reflexivity]. rewrite (He eq_refl) in H. inversion H as [|gap w' ws' t Hg (Hne & _) _ _ E1 E2].
  destruct gap; [|discriminate]. destruct w; [congruence|discriminate].
Qed.
Lemma before_good st w ws : before st (w :: ws) -> good st = true.
Proof. intros H. unfold good. rewrite (before_more _ _ _ H). destruct H as (-> & _). reflexivity. Qed.

Lemma in_u32_word st w ws v old : before st (w :: ws) -> numeral w v -> (v < 4294967296)%N -> exists st', in_u32 st old = (st', v) /\ before st' ws.
Proof.
  intros H Hw Hv. unfold in_u32. rewrite (before_good _ _ _ H). destruct H as (Hf & Hl & _).
  inversion Hl as [|gap w' ws' text Hg Hs Ht Hl' E1 E2]; subst. rewrite skip_white, skip_solid by assumption.
  pose proof (span_digits_ok w 0 text) as Hsp. destruct Hw as (Hne & Hd & E). rewrite E in Hsp. specialize (Hsp Hd Ht).
  destruct w as [|b w]; [congruence|]. inversion Hd as [|? ? Hb _]; subst. cbn [app] in *.
  destruct (N.eqb_spec b 45); [lia|]. destruct (N.eqb_spec b 43); [lia|].
  assert (Hi : isdigit b = true) by (unfold isdigit; lia). rewrite Hi, Hsp. destruct (N.ltb_spec (fold_left (fun v b => 10 * v + (b - 48))%N (b :: w) 0%N) 4294967296); [|lia].
  eexists. split; [reflexivity|]. split; [reflexivity|]. split; [exact Hl'|]. cbn [st_eof st_rest]. destruct text; [reflexivity|discriminate].
Qed.
Lemma in_u32_end st old : before st [] -> exists st', in_u32 st old = (st', old) /\ over st'.
Proof.
  intros (Hf & Hl & He). unfold in_u32, good. rewrite Hf. destruct (st_eof st) eqn:E; cbn [negb andb].
  - eexists. split; [reflexivity|]. split; reflexivity.
  - inversion Hl as [gap Hg|]; subst. rewrite skip_all by assumption. eexists. split; [reflexivity|]. split; reflexivity.
Qed.
Lemma in_u32_over st old : over st -> exists st', in_u32 st old = (st', old) /\ over st'.
Proof. intros (Hf & He). unfold in_u32, good. rewrite He. eexists. split; [reflexivity|]. split; reflexivity. Qed.
Lemma in_string_word st w ws old : before st (w :: ws) -> exists st', in_string st old = (st', w) /\ before st' ws.
Proof.
  intros H. unfold in_string. rewrite (before_good _ _ _ H). destruct H as (Hf & Hl & _).
  inversion Hl as [|gap w' ws' text Hg Hs Ht Hl' E1 E2]; subst. rewrite skip_white, skip_solid by assumption.
  pose proof (span_word_ok w text (proj2 Hs) Ht) as Hsp. destruct Hs as (Hne & _). destruct w as [|b w]; [congruence|]. cbn [app] in *.
  rewrite Hsp. eexists. split; [reflexivity|]. split; [reflexivity|]. split; [exact Hl'|]. cbn [st_eof st_rest]. destruct text; [reflexivity|discriminate].
Qed.

(** * Completions *)
Lemma read_ids_ok ids : forall ws fuel st x acc rest, Forall (fun x => (0 < x < 4294967296)%N) ids -> Forall2 numeral ws (ids ++ [0%N]) ->
  before st (ws ++ rest) -> x <> 0%N -> length ids + 1 < fuel ->
  exists st', read_ids fuel st x acc = Ok (st', acc ++ ids ++ [0%N]) /\ before st' rest.
Proof.
  induction ids as [|y ids IH]; intros ws fuel st x acc rest Hids Hw Hb Hx Hf; cbn [app] in Hw; inversion Hw as [|w ? ws' ? Hwy Hws]; subst; cbn [app] in Hb.
  - inversion Hws; subst. destruct fuel as [|[|fuel]]; [lia|cbn in Hf; lia|]. cbn [read_ids]. rewrite (before_more _ _ _ Hb). destruct (N.eqb_spec x 0); [congruence|]. cbn [negb andb].
    destruct (in_u32_word st w rest 0 x Hb Hwy eq_refl) as (st' & -> & Hb'). exists st'. cbn [N.eqb negb]. rewrite andb_false_r. auto.
  - destruct fuel as [|fuel]; [lia|]. cbn [read_ids]. rewrite (before_more _ _ _ Hb). destruct (N.eqb_spec x 0); [congruence|]. cbn [negb andb].
    inversion Hids; subst. destruct (in_u32_word st w (ws' ++ rest) y x Hb Hwy) as (st' & -> & Hb'); [lia|].
    destruct (IH ws' fuel st' y (acc ++ [y]) rest) as (st'' & -> & Hb''); try assumption; [lia|cbn in Hf; lia|].
    exists st''. rewrite <- app_assoc. auto.
Qed.

Definition rec_numbers (r : N * list N) : list N := fst r :: snd r ++ [0%N].
Definition rec_ok (r : N * list N) : Prop := (fst r < 4294967296)%N /\ Forall (fun x => (0 < x < 4294967296)%N) (snd r).

Lemma read_next_ok r ws rest fuel st old : rec_ok r -> Forall2 numeral ws (rec_numbers r) -> before st (ws ++ rest) -> length (snd r) + 1 < fuel ->
  exists st', read_next fuel st old = Ok {| ci_st := st'; ci_doc := fst r; ci_completion := snd r ++ [0%N] |} /\ before st' rest.
Proof.
  intros (Hd & Hids) Hw Hb Hf. destruct r as [d ids]. unfold rec_numbers in Hw. cbn [fst snd] in *. inversion Hw as [|w ? ws' ? Hwd Hws]; subst. cbn [app] in Hb.
  unfold read_next. destruct (in_u32_word st w (ws' ++ rest) d old Hb Hwd Hd) as (st' & -> & Hb').
  destruct (read_ids_ok ids ws' fuel st' 4294967295 [] rest Hids Hws Hb') as (st'' & -> & Hb''); [discriminate|assumption|].
  exists st''. auto.
Qed.
Lemma read_next_end fuel st old : before st [] \/ over st -> 0 < fuel ->
  exists st', read_next fuel st old = Ok {| ci_st := st'; ci_doc := old; ci_completion := [] |} /\ over st'.
Proof.
  intros H Hf. unfold read_next. assert (Hi : exists st', in_u32 st old = (st', old) /\ over st') by (destruct H; [now apply in_u32_end|now apply in_u32_over]).
  destruct Hi as (st' & -> & Ho). destruct fuel as [|fuel]; [lia|]. cbn [read_ids]. destruct Ho as (A & B). rewrite B. cbn [negb andb bind].
  exists st'. split; [reflexivity|]. now split.
Qed.

(** The iterator shows the first of the records [recs], or is at the end. *)
Definition showing (it : citer) (recs : list (N * list N)) : Prop :=
  match recs with
  | [] => over (ci_st it) /\ ci_completion it = []
  | r :: recs' => ci_doc it = fst r /\ ci_completion it = snd r ++ [0%N] /\
      exists ws, Forall2 numeral ws (concat (map rec_numbers recs')) /\ before (ci_st it) ws
  end.
Lemma forall2_app_inv_r {A B} (R : A -> B -> Prop) l : forall m1 m2, Forall2 R l (m1 ++ m2) -> exists l1 l2, l = l1 ++ l2 /\ Forall2 R l1 m1 /\ Forall2 R l2 m2.
Proof. intros m1 m2 H. destruct (Forall2_app_inv_r _ _ H) as (l1 & l2 & A1 & A2 & A3). eauto. Qed.

Definition fuel_ok (fuel : nat) (recs : list (N * list N)) : Prop := 0 < fuel /\ Forall (fun r => length (snd r) + 1 < fuel) recs.
Lemma read_next_showing recs fuel st old ws : Forall rec_ok recs -> fuel_ok fuel recs -> Forall2 numeral ws (concat (map rec_numbers recs)) -> before st ws ->
  exists it, read_next fuel st old = Ok it /\ showing it recs.
Proof.
  intros Hr (Hf0 & Hf) Hw Hb. destruct recs as [|r recs]; cbn [map concat] in Hw.
  - inversion Hw; subst. destruct (read_next_end fuel st old (or_introl Hb) Hf0) as (st' & -> & Ho). eexists. split; [reflexivity|]. now split.
  - destruct (forall2_app_inv_r _ _ _ _ Hw) as (w1 & w2 & -> & H1 & H2). inversion Hr; subst. inversion Hf; subst.
    destruct (read_next_ok r w1 w2 fuel st old) as (st' & -> & Hb'); try assumption. eexists. split; [reflexivity|].
    split; [reflexivity|]. split; [reflexivity|]. exists w2. now split.
Qed.
Lemma ci_incr_ok r recs fuel it : Forall rec_ok recs -> fuel_ok fuel recs -> showing it (r :: recs) -> exists it', ci_incr fuel it = Ok it' /\ showing it' recs.
Proof. intros Hr Hf (_ & _ & ws & Hw & Hb). unfold ci_incr. exact (read_next_showing recs fuel _ _ ws Hr Hf Hw Hb). Qed.
Lemma ci_incr_end fuel it : 0 < fuel -> showing it [] -> exists it', ci_incr fuel it = Ok it' /\ showing it' [] /\ ci_doc it' = ci_doc it.
Proof.
  intros Hf (Ho & _). unfold ci_incr. destruct (read_next_end fuel (ci_st it) (ci_doc it) (or_intror Ho) Hf) as (st' & -> & Ho').
  eexists. split; [reflexivity|]. split; [now split|reflexivity].
Qed.
Lemma ci_open_ok recs fuel junk text : Forall rec_ok recs -> fuel_ok fuel recs -> numbers (concat (map rec_numbers recs)) text ->
  exists it, ci_open fuel junk (open_file text) = Ok it /\ showing it recs.
Proof.
  intros Hr Hf (ws & Hw & Hl). unfold ci_open. cbn [good open_file st_eof st_fail negb andb].
  exact (read_next_showing recs fuel _ _ ws Hr Hf Hw (before_open _ _ Hl)).
Qed.

Lemma showing_fail it recs : showing it recs -> st_fail (ci_st it) = is_nil recs.
Proof. destruct recs; [intros ((H & _) & _); exact H|intros (_ & _ & ws & _ & (H & _)); exact H]. Qed.
Definition terminate (r : N * list N) : N * list N := (fst r, snd r ++ [0%N]).
Lemma read_while_ok recs : forall fuel f it, Forall rec_ok recs -> fuel_ok fuel recs -> showing it recs -> length recs < f ->
  exists e, read_while fuel f it = Ok (map terminate recs, e) /\ showing e [].
Proof.
  induction recs as [|r recs IH]; intros fuel f it Hr Hf Hs Hn; (destruct f as [|f]; [cbn in Hn; lia|]); cbn [read_while]; rewrite (showing_fail _ _ Hs); cbn [is_nil].
  - eauto.
  - inversion Hr; subst. destruct Hf as (Hf0 & Hf). inversion Hf; subst.
    destruct (ci_incr_ok r recs fuel it) as (it' & -> & Hs'); [assumption|now split|assumption|]. cbn [bind].
    destruct (IH fuel f it') as (e & -> & He); [assumption|now split|assumption|cbn in Hn; lia|]. cbn [bind map]. exists e.
    destruct Hs as (-> & -> & _). split; [reflexivity|exact He].
Qed.
Lemma read_count_ok recs : forall fuel it, Forall rec_ok recs -> fuel_ok fuel recs -> showing it recs ->
  exists e, read_count fuel (length recs) it = Ok (map terminate recs, e) /\ showing e [].
Proof.
  induction recs as [|r recs IH]; intros fuel it Hr Hf Hs; cbn [length read_count].
  - eauto.
  - inversion Hr; subst. destruct Hf as (Hf0 & Hf). inversion Hf; subst.
    destruct (ci_incr_ok r recs fuel it) as (it' & -> & Hs'); [assumption|now split|assumption|]. cbn [bind].
    destruct (IH fuel it') as (e & -> & He); [assumption|now split|assumption|]. cbn [bind map]. exists e.
    destruct Hs as (-> & -> & _). split; [reflexivity|exact He].
Qed.

(** The length of the text bounds the loops. *)
Lemma layout_length ws text : layout ws text -> length ws <= length text.
Proof. induction 1 as [|gap w ws text _ (Hne & _) _ _ IH]; cbn [length]; [lia|]. rewrite !app_length. destruct w; [congruence|]. cbn [length]. lia. Qed.
Lemma Forall2_len {A B} (R : A -> B -> Prop) l m : Forall2 R l m -> length l = length m.
Proof. induction 1; cbn [length]; congruence. Qed.
Lemma numbers_length vs text : numbers vs text -> length vs <= length text.
Proof. intros (ws & Hw & Hl). rewrite <- (Forall2_len _ _ _ Hw). now apply layout_length. Qed.
Lemma fuel_text recs text fuel : numbers (concat (map rec_numbers recs)) text -> length text < fuel -> fuel_ok fuel recs /\ length recs < fuel.
Proof.
  intros H Hf. apply numbers_length in H.
  assert (Hx : Forall (fun r => length (snd r) + 2 <= length (concat (map rec_numbers recs))) recs /\ length recs <= length (concat (map rec_numbers recs))).
  { clear. induction recs as [|r recs (IH1 & IH2)]; [split; [constructor|cbn; lia]|]. cbn [map concat]. unfold rec_numbers at 1 3. cbn [length app]. rewrite !app_length. cbn [length]. split; [|lia].
    constructor; [lia|]. eapply Forall_impl; [|exact IH1]. cbn. lia. }
  destruct Hx as (H1 & H2). split; [|lia]. split; [lia|]. eapply Forall_impl; [|exact H1]. cbn. lia.
Qed.

(** * Lists, words, statistics *)
Definition list_numbers (l : list N) : list N := N.of_nat (length l) :: l.
Definition small32 (x : N) : Prop := (x < 4294967296)%N.
Lemma read_values_ok l : forall ws st rest junk, Forall small32 l -> Forall2 numeral ws l -> before st (ws ++ rest) ->
  exists st', read_values (length l) st junk = (st', l) /\ before st' rest.
Proof.
  induction l as [|x l IH]; intros ws st rest junk Hl Hw Hb; inversion Hw as [|w ? ws' ? Hx Hws]; subst; cbn [length read_values app] in *; [eauto|].
  inversion Hl; subst. destruct (in_u32_word st w (ws' ++ rest) x junk Hb Hx) as (st' & -> & Hb'); [assumption|].
  destruct (IH ws' st' rest junk) as (st'' & -> & Hb''); try assumption. eauto.
Qed.
Lemma read_lists_ok ls : forall ws st junk, Forall (fun l => small32 (N.of_nat (length l)) /\ Forall small32 l) ls -> Forall2 numeral ws (concat (map list_numbers ls)) -> before st ws ->
  exists st', read_lists (length ls) st junk = (st', ls) /\ before st' [].
Proof.
  induction ls as [|l ls IH]; intros ws st junk Hl Hw Hb; cbn [map concat length read_lists] in *.
  - inversion Hw; subst. eauto.
  - inversion Hl as [|? ? (H1 & H2) H3]; subst. cbn [list_numbers app] in Hw. inversion Hw as [|w ? ws' ? Hn Hws]; subst.
    destruct (forall2_app_inv_r _ _ _ _ Hws) as (w1 & w2 & -> & A1 & A2).
    destruct (in_u32_word st w (w1 ++ w2) _ 0%N Hb Hn H1) as (st1 & -> & Hb1). rewrite Nat2N.id.
    destruct (read_values_ok l w1 st1 w2 junk H2 A1 Hb1) as (st2 & -> & Hb2).
    destruct (IH w2 st2 junk H3 A2 Hb2) as (st3 & -> & Hb3). eauto.
Qed.
Lemma read_words_ok ws : forall st old, before st ws -> exists st', read_words (length ws) st old = (st', ws) /\ before st' [].
Proof.
  induction ws as [|w ws IH]; intros st old Hb; cbn [length read_words]; [eauto|].
  destruct (in_string_word st w ws old Hb) as (st1 & -> & Hb1). destruct (IH st1 w Hb1) as (st2 & -> & Hb2). eauto.
Qed.
Lemma read_nodes_ok l : forall ws st, Forall small32 l -> Forall2 numeral ws l -> before st ws -> exists st', read_nodes (length l) st = Ok (st', l).
Proof.
  induction l as [|x l IH]; intros ws st Hl Hw Hb; inversion Hw as [|w ? ws' ? Hx Hws]; subst; cbn [length read_nodes] in *; [eauto|].
  inversion Hl; subst. destruct Hb as (Hf & Hb). rewrite Hf. destruct (in_u32_word st w ws' x 0 (conj Hf Hb) Hx) as (st' & -> & Hb'); [assumption|].
  destruct (IH ws' st') as (st'' & ->); try assumption. cbn [bind]. eauto.
Qed.
Lemma load_ok nt ml nc u nl nodes text : Forall small32 [nt; ml; nc; u; nl] -> Forall small32 nodes -> (ml <= 128)%N -> (nl <= 64)%N -> N.of_nat (length nodes) = nl ->
  numbers (nt :: ml :: nc :: u :: nl :: nodes) text ->
  load text = Ok {| pa_terms := nt; pa_max_len := ml; pa_comps := nc; pa_universe := u; pa_levels := nl; pa_nodes := nodes |}.
Proof.
  intros Hs Hn Hml Hnl Hlen (ws & Hw & Hl). pose proof (before_open _ _ Hl) as Hb. unfold load. generalize dependent (open_file text). intros st Hb.
  repeat match goal with H : Forall small32 (_ :: _) |- _ => inversion H; clear H; subst end.
  repeat match goal with H : Forall2 numeral _ (_ :: _) |- _ => inversion H; clear H; subst end.
  destruct (in_u32_word st _ _ nt 0%N Hb) as (st1 & -> & Hb1); [eassumption..|].
  destruct (in_u32_word st1 _ _ ml 0%N Hb1) as (st2 & -> & Hb2); [eassumption..|].
  destruct (in_u32_word st2 _ _ nc 0%N Hb2) as (st3 & -> & Hb3); [eassumption..|].
  destruct (in_u32_word st3 _ _ u 0%N Hb3) as (st4 & -> & Hb4); [eassumption..|].
  destruct (in_u32_word st4 _ _ (N.of_nat (length nodes)) 0%N Hb4) as (st5 & -> & Hb5); [eassumption..|].
  destruct (N.ltb_spec 128 ml); [lia|]. destruct (N.ltb_spec 64 (N.of_nat (length nodes))); [lia|]. rewrite Nat2N.id.
  destruct (read_nodes_ok nodes l st5 Hn) as (st6 & ->); [eassumption|eassumption|]. reflexivity.
Qed.
