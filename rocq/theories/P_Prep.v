(** Proofs: the preprocessing scripts write the files of the collection the input describes. *)
From Coq Require Import Sorted Permutation.
From Verif Require Import Base S_Python S_Order P_Order S_Vocab S_Completions S_Json S_Text S_Iter S_Trie S_Collection M_Input S_Files S_Prep M_Prep P_PrepText P_PrepDict P_Levels P_PrepRows.
Local Open Scope nat_scope.
Section Python.
Context {py : python}.

(** ** Layouts of the files written *)
Lemma layout_gap ws t b : layout ws t -> white b -> layout ws (b :: t).
Proof.
  intros H Hb. destruct H as [gap Hg|gap w ws text Hg Hw Ht Hl]; [apply lay_end; now constructor|].
  apply (lay_word (b :: gap) w ws text); [now constructor|assumption..].
Qed.
Lemma white32 : white 32.
Proof. now left. Qed.
Lemma white10 : white 10.
Proof. right. lia. Qed.
Lemma layout_line ws : forall rest t, Forall solid ws -> layout rest t -> layout (ws ++ rest) (join_space ws ++ 10%N :: t).
Proof.
  induction ws as [|w ws IH]; intros rest t H Ht; [cbn [app join_space]; apply layout_gap; [exact Ht|exact white10]|].
  inversion H as [|? ? Hw H']; subst. cbn [join_space]. destruct ws as [|v ws].
  - cbn [app]. apply (lay_word [] w); [constructor|exact Hw|right; eexists _, _; split; [reflexivity|exact white10]|]. apply layout_gap; [exact Ht|exact white10].
  - rewrite <- app_assoc. cbn [app]. apply (lay_word [] w); [constructor|exact Hw|right; eexists _, _; split; [reflexivity|exact white32]|].
    apply layout_gap; [|exact white32]. apply (IH rest t H' Ht).
Qed.
Lemma layout_lines wss : Forall (Forall solid) wss -> layout (concat wss) (flat_map (fun ws => join_space ws ++ NL) wss).
Proof.
  induction 1 as [|ws wss H Hs IH]; [apply lay_end; constructor|]. cbn [concat flat_map]. unfold NL at 1. rewrite <- app_assoc. now apply layout_line.
Qed.
Lemma numeral_solid w v : numeral w v -> solid w.
Proof. intros (H1 & H2 & _). split; [exact H1|]. eapply Forall_impl; [|exact H2]. unfold white. intros b Hb. cbn beta in Hb. lia. Qed.
Lemma str_solid n : solid (str n).
Proof. exact (numeral_solid _ _ (str_numeral n)). Qed.
Lemma forall2_str l : Forall2 numeral (map str l) l.
Proof. induction l; constructor; [apply str_numeral|assumption]. Qed.
Lemma numbers_lines vss : numbers (concat vss) (flat_map (fun vs => join_space (map str vs) ++ NL) vss).
Proof.
  exists (map str (concat vss)). split; [apply forall2_str|]. rewrite concat_map.
  replace (flat_map (fun vs => join_space (map str vs) ++ NL) vss) with (flat_map (fun ws => join_space ws ++ NL) (map (map str) vss)).
  - apply layout_lines. apply Forall_forall. intros ws Hws. apply in_map_iff in Hws as (vs & <- & _). apply Forall_forall. intros w Hw. apply in_map_iff in Hw as (v & <- & _). apply str_solid.
  - induction vss as [|vs vss IH]; [reflexivity|]. cbn [map flat_map]. now rewrite IH.
Qed.
Lemma numbers_counted ls : numbers (concat (map counted ls)) (flat_map list_line ls).
Proof.
  induction ls as [|l ls IH]; [exact (numbers_lines [])|]. destruct IH as (ws & Hn & Hl). cbn [map concat flat_map]. unfold counted at 1, list_line at 1.
  exists ((str (N.of_nat (length l)) :: map str l) ++ ws). split.
  - cbn [app]. constructor; [apply str_numeral|]. apply Forall2_app; [apply forall2_str|exact Hn].
  - cbn [app]. rewrite <- app_assoc. cbn [app]. apply (lay_word [] (str (N.of_nat (length l)))); [constructor|apply str_solid|right; eexists _, _; split; [reflexivity|exact white32]|].
    apply layout_gap; [|exact white32]. unfold NL. rewrite <- app_assoc. apply layout_line; [|exact Hl]. apply Forall_forall. intros w Hw. apply in_map_iff in Hw as (v & <- & _). apply str_solid.
Qed.

(** ** Files of digits are ASCII *)
Definition ascii (l : list N) : Prop := Forall (fun c => (c < 128)%N) l.
Lemma ascii_app l m : ascii l -> ascii m -> ascii (l ++ m).
Proof. intros. now apply Forall_app. Qed.
Lemma ascii_numeral w v : numeral w v -> ascii w.
Proof. intros (_ & H & _). eapply Forall_impl; [|exact H]. intros b Hb. cbn beta in Hb. lia. Qed.
Lemma ascii_str n : ascii (str n).
Proof. exact (ascii_numeral _ _ (str_numeral n)). Qed.
Lemma ascii_nl : ascii NL.
Proof. repeat constructor. Qed.
Lemma ascii_join ws : Forall ascii ws -> ascii (join_space ws).
Proof.
  induction 1 as [|w ws H Hs IH]; [constructor|]. cbn [join_space]. destruct ws; [exact H|]. apply ascii_app; [exact H|]. constructor; [lia|exact IH].
Qed.
Lemma ascii_strs l : Forall ascii (map str l).
Proof. apply Forall_forall. intros w Hw. apply in_map_iff in Hw as (v & <- & _). apply ascii_str. Qed.
Lemma ascii_flat {A} (f : A -> list N) l : (forall x, In x l -> ascii (f x)) -> ascii (flat_map f l).
Proof. intros H. apply Forall_forall. intros c Hc. apply in_flat_map in Hc as (x & Hx & Hc). specialize (H x Hx). unfold ascii in H. rewrite Forall_forall in H. now apply H. Qed.
Lemma ascii_list_line l : ascii (list_line l).
Proof. unfold list_line. apply ascii_app; [apply ascii_str|]. constructor; [lia|]. apply ascii_app; [apply ascii_join, ascii_strs|exact ascii_nl]. Qed.

(** ** Order *)
Definition above (w : list N) : Prop := Forall (fun c => (32 < c)%N) w.
Definition tail_ok (x : list N) : Prop := x = [] \/ exists t, x = 32%N :: t.
Lemma word_order v : forall w x y, above v -> above w -> tail_ok x -> tail_ok y -> lex_lt (v ++ x) (w ++ y) -> v <> w -> lex_lt v w.
Proof.
  induction v as [|a v IH]; intros [|b w] x y Hv Hw Hx Hy H Hn; [congruence|constructor| |].
  - exfalso. inversion Hv as [|? ? Ha _]; subst. cbn [app] in H. destruct Hy as [->|(t & ->)]; inversion H; subst; lia.
  - inversion Hv; inversion Hw; subst. cbn [app] in H. inversion H; subst; [now apply lex_head|]. apply lex_tail. apply (IH w x y); try assumption. congruence.
Qed.
Lemma join_tail w ws : exists x, join (w :: ws) = w ++ x /\ tail_ok x /\ (x = [] <-> ws = []).
Proof.
  cbn [join]. destruct ws as [|v ws]; [exists []; rewrite app_nil_r; split; [reflexivity|]; split; [now left|tauto]|].
  eexists. split; [reflexivity|]. split; [right; eexists; reflexivity|]. split; discriminate.
Qed.
Lemma lex_app_inv w : forall x y, lex_lt (w ++ x) (w ++ y) -> lex_lt x y.
Proof. induction w as [|a w IH]; intros x y H; [exact H|]. cbn [app] in H. inversion H; subst; [lia|]. now apply IH. Qed.
Lemma join_order (f : list N -> N) : forall a b, Forall (fun w => w <> [] /\ above w) a -> Forall (fun w => w <> [] /\ above w) b ->
  (forall v w, In v a -> In w b -> lex_lt v w -> (f v < f w)%N) -> lex_lt (join a) (join b) -> lex_lt (map f a) (map f b).
Proof.
  induction a as [|v a IH]; intros [|w b] Ha Hb Hf H.
  - inversion H.
  - constructor.
  - exfalso. inversion H.
  - inversion Ha as [|? ? (Hv0 & Hv) Ha']; inversion Hb as [|? ? (Hw0 & Hw) Hb']; subst. cbn [map]. destruct (list_eq_dec N.eq_dec v w) as [->|Hn].
    + apply lex_tail. apply IH; try assumption; [intros; apply Hf; try assumption; now right|].
      cbn [join] in H. destruct a as [|v' a], b as [|w' b].
      * exfalso. exact (lex_irrefl _ H).
      * destruct (join_tail w' b) as (x & Ex & _). rewrite Ex. inversion Hb' as [|? ? (Hw'0 & _) _]; subst. destruct w'; [congruence|]. constructor.
      * exfalso. rewrite <- (app_nil_r w) in H at 2. apply lex_app_inv in H. inversion H.
      * apply lex_app_inv in H. inversion H; subst; [lia|assumption].
    + apply lex_head. apply Hf; [now left|now left|]. destruct (join_tail v a) as (x & Ex & Hx & _), (join_tail w b) as (y & Ey & Hy & _). rewrite Ex, Ey in H.
      now apply (word_order v w x y).
Qed.

(** ** The collection *)
Lemma find_doc_found ds : forall cs i d x, NoDup ds -> nth_error ds i = Some d -> nth_error cs i = Some x -> find_doc ds cs d = x.
Proof.
  induction ds as [|d' ds IH]; intros cs [|i] d x Hn Hd Hx; try discriminate; destruct cs as [|c cs]; try discriminate; cbn [nth_error find_doc] in *.
  - injection Hd as ->. injection Hx as ->. now rewrite Nat.eqb_refl.
  - apply NoDup_cons_iff in Hn as (Hni & Hn). destruct (Nat.eqb_spec d' d) as [->|_]; [exfalso; apply Hni; exact (nth_error_In _ _ Hd)|]. now apply (IH cs i).
Qed.
Lemma find_doc_inv ds : forall cs d y, In y (find_doc ds cs d) -> exists i x, nth_error ds i = Some d /\ nth_error cs i = Some x /\ In y x.
Proof.
  induction ds as [|d' ds IH]; intros [|c cs] d y H; try destruct H. cbn [find_doc] in H. destruct (Nat.eqb_spec d' d) as [->|_].
  - exists 0, c. auto.
  - destruct (IH cs d y H) as (i & x & H1 & H2 & H3). exists (S i), x. auto.
Qed.
Lemma lex_sorted_map {A} (f : A -> list N) (g : A -> list N) l : (forall a b, In a l -> In b l -> lex_lt (f a) (f b) -> lex_lt (g a) (g b)) ->
  lex_sorted (map f l) -> lex_sorted (map g l).
Proof.
  induction l as [|a l IH]; intros H Hs; [exact I|]. cbn [map] in *. cbn [lex_sorted] in *. destruct Hs as (H1 & H2). split; [|apply IH; [intros; apply H; try assumption; now right|exact H2]].
  destruct l as [|b l]; [exact I|]. cbn [map] in *. apply H; [now left|right; now left|exact H1].
Qed.
Lemma fold_max_ge l x : In x l -> x <= fold_right Nat.max 0 l.
Proof. induction l as [|y l IH]; intros H; [destruct H|]. cbn [fold_right]. destruct H as [->|H]; [lia|]. specialize (IH H). lia. Qed.
Lemma fold_max_lt l b : 0 < b -> Forall (fun x => x < b) l -> fold_right Nat.max 0 l < b.
Proof. intros Hb. induction 1 as [|y l H Hl IH]; cbn [fold_right]; lia. Qed.
Lemma ssorted_map_of_nat l : StronglySorted lt l -> StronglySorted N.lt (map N.of_nat l).
Proof. induction 1 as [|a l H IH Ha]; [constructor|]. cbn [map]. constructor; [exact IH|]. apply Forall_forall. intros x Hx. apply in_map_iff in Hx as (y & <- & Hy). rewrite Forall_forall in Ha. specialize (Ha y Hy). lia. Qed.
Lemma ssorted_seq n : forall s, StronglySorted lt (seq s n).
Proof. induction n as [|n IH]; intros s; [constructor|]. cbn [seq]. constructor; [apply IH|]. apply Forall_forall. intros x Hx. apply in_seq in Hx. lia. Qed.
Lemma ssorted_filter (f : nat -> bool) l : StronglySorted lt l -> StronglySorted lt (filter f l).
Proof.
  induction 1 as [|a l H IH Ha]; [constructor|]. cbn [filter]. destruct (f a); [|exact IH]. constructor; [exact IH|]. apply Forall_forall. intros x Hx. apply filter_In in Hx as (Hx & _).
  rewrite Forall_forall in Ha. now apply Ha.
Qed.
Lemma encoded_concat ws : concat (map encoded ws) = encoded (concat ws).
Proof. induction ws as [|w ws IH]; [reflexivity|]. cbn [map concat]. now rewrite IH, encoded_app. Qed.
Lemma encoded_join ws : join (map encoded ws) = encoded (join ws).
Proof.
  induction ws as [|w ws IH]; [reflexivity|]. cbn [map join]. destruct ws as [|v ws]; [reflexivity|]. change (map encoded (v :: ws)) with (encoded v :: map encoded ws).
  cbn iota. change (encoded v :: map encoded ws) with (map encoded (v :: ws)). rewrite IH, encoded_app. f_equal. change (32%N :: join (v :: ws)) with ([32%N] ++ join (v :: ws)). rewrite encoded_app. rewrite (encoded_ascii [32%N]) by (repeat constructor). reflexivity.
Qed.
Lemma length_encoded s : length s <= length (encoded s).
Proof.
  unfold encoded. induction s as [|c s IH]; [reflexivity|]. cbn [flat_map length]. rewrite app_length. pose proof (code_nonempty c). destruct (code c); [congruence|]. cbn [length]. lia.
Qed.
Lemma encoded_in_concat w ws : In w ws -> length (encoded w) <= length (encoded (concat ws)).
Proof. intros H. apply in_split in H as (a & b & ->). rewrite concat_app. cbn [concat]. rewrite !encoded_app, !app_length. lia. Qed.

Lemma Forall2_len {A B} (R : A -> B -> Prop) l m : Forall2 R l m -> length l = length m.
Proof. induction 1; cbn [length]; congruence. Qed.

Lemma combine_map {A B C} (f : A -> B) (g : A -> C) l : combine (map f l) (map g l) = map (fun x => (f x, g x)) l.
Proof. induction l as [|a l IH]; [reflexivity|]. cbn [map combine]. now rewrite IH. Qed.
Lemma flat_map_map {A B C} (f : B -> list C) (g : A -> B) l : flat_map f (map g l) = flat_map (fun x => f (g x)) l.
Proof. induction l as [|a l IH]; [reflexivity|]. cbn [map flat_map]. now rewrite IH. Qed.
Lemma concat_single {A B} (f : A -> B) l : concat (map (fun x => [f x]) l) = map f l.
Proof. induction l as [|a l IH]; [reflexivity|]. cbn [map concat app]. now rewrite IH. Qed.
Lemma encoded_flat l : encoded (flat_map (fun w => w ++ NL) l) = flat_map (fun w => encoded w ++ NL) l.
Proof. induction l as [|a l IH]; [reflexivity|]. cbn [flat_map]. rewrite !encoded_app, IH. rewrite (encoded_ascii NL) by (repeat constructor). reflexivity. Qed.

Section Input.
Variables (es : entries) (ids : list (list N)) (input : list N).
Hypothesis Hv : valid_input es.
Hypothesis Hids : Forall2 numeral ids (map (fun e => N.of_nat (fst e)) es).
Hypothesis Htab : table (map (fun p => fst p :: snd (snd p)) (combine ids es)) input.

Let rows : list trow := combine ids es.
Let V := vocab (map columns_of rows).
Definition coll : collection :=
  {| terms := map encoded V; comps := map (ids_of V) rows; docs := map doc_of rows; universe := S (fold_right Nat.max O (map fst es)) |}.

Lemma rows_es : map snd rows = es.
Proof.
  unfold rows. pose proof (Forall2_len _ _ _ Hids) as H. rewrite map_length in H. clear -H. revert es H. induction ids as [|w l IH]; intros [|e es0] H; try discriminate; [reflexivity|].
  cbn [combine map snd]. f_equal. apply IH. now injection H.
Qed.
Lemma rows_docs : map doc_of rows = map fst es.
Proof. rewrite <- rows_es, map_map. reflexivity. Qed.
Lemma rows_in r : In r rows -> In (snd r) es.
Proof. intros H. rewrite <- rows_es. now apply in_map. Qed.
Lemma in_rows e : In e es -> exists r, In r rows /\ snd r = e.
Proof. intros H. rewrite <- rows_es in H. apply in_map_iff in H as (r & <- & H). eauto. Qed.
Lemma rows_numeral r : In r rows -> numeral (fst r) (N.of_nat (doc_of r)).
Proof.
  unfold rows, doc_of. clear -Hids. revert es Hids r. induction ids as [|w l IH]; intros [|e es0] H r Hr; cbn [combine map] in *; try destruct Hr.
  - subst r. now inversion H.
  - inversion H; subst. now apply (IH es0).
Qed.
Lemma V_in w : In w V <-> occurs es w.
Proof.
  unfold V. rewrite vocab_in. unfold rows_tokens. rewrite in_flat_map. unfold occurs. split.
  - intros (x & Hx & Hw). apply in_map_iff in Hx as (r & <- & Hr). exists (snd r). split; [now apply rows_in|exact Hw].
  - intros (e & He & Hw). destruct (in_rows e He) as (r & Hr & <-). exists (columns_of r). split; [now apply in_map|exact Hw].
Qed.
Lemma V_sorted : lex_sorted V.
Proof. apply vocab_sorted. Qed.
Lemma entry_ok e : In e es -> (0 < length (snd e) <= 63) /\ Forall is_word (snd e) /\ length (encoded (concat (snd e))) <= 128.
Proof. intros H. pose proof (vi_words es Hv) as HH. rewrite Forall_forall in HH. exact (HH e H). Qed.
Lemma first_entry : exists e, In e es.
Proof. pose proof (vi_some es Hv) as H. clear -H. destruct es as [|e l]; [congruence|]. exists e. now left. Qed.
Lemma V_word w : In w V -> is_word w /\ length (encoded w) <= 128.
Proof.
  intros H. apply V_in in H as (e & He & Hw). destruct (entry_ok e He) as (_ & Hws & Hl). rewrite Forall_forall in Hws. split; [now apply Hws|].
  pose proof (encoded_in_concat w _ Hw). lia.
Qed.
Lemma V_few : (N.of_nat (length V) < 1073741823)%N.
Proof.
  destruct (vi_vocab es Hv) as (vocab & Hl & Hin). assert (length V <= length vocab); [|lia]. apply NoDup_incl_length; [apply lex_sorted_NoDup, V_sorted|].
  intros w Hw. apply Hin. now apply V_in.
Qed.
Lemma rows_len : length rows = length es.
Proof. rewrite <- rows_es, map_length. reflexivity. Qed.
Lemma rows_ok : Forall (row_ok V) rows.
Proof.
  apply Forall_forall. intros r Hr. split; [exact (rows_numeral r Hr)|]. apply Forall_forall. intros w Hw. apply V_in. exists (snd r). split; [now apply rows_in|exact Hw].
Qed.
Lemma rows_words r w : In r rows -> In w (snd (snd r)) -> In w V.
Proof. intros Hr Hw. pose proof rows_ok as H. rewrite Forall_forall in H. destruct (H r Hr) as (_ & H2). rewrite Forall_forall in H2. now apply H2. Qed.
Lemma word_id w : In w V -> word coll (id_of V w) = encoded w.
Proof.
  intros H. unfold word, id_of. rewrite Nat2N.id. cbn [terms coll]. replace (index V w + 1 - 1) with (index V w) by lia.
  apply nth_error_nth. rewrite nth_error_map, (index_nth V w H). reflexivity.
Qed.
Lemma words_ids r : In r rows -> words_of coll (ids_of V r) = map encoded (snd (snd r)).
Proof. intros Hr. unfold words_of, ids_of. rewrite map_map. apply map_ext_in. intros w Hw. apply word_id. exact (rows_words r w Hr Hw). Qed.
Lemma letters_scalar w : is_word w -> Forall scalar w.
Proof. intros (_ & H). eapply Forall_impl; [|exact H]. intros c ((H1 & H2) & _). pose proof characters_le. unfold scalar. lia. Qed.
Lemma word_above w : is_word w -> w <> [] /\ above w.
Proof. intros (H0 & H). split; [exact H0|]. eapply Forall_impl; [|exact H]. intros c ((H1 & H2) & _). exact H1. Qed.
Lemma terms_sorted : lex_sorted (map encoded V).
Proof.
  apply (lex_sorted_map (fun w => w)); [|rewrite map_id; exact V_sorted]. intros a b Ha Hb H. apply encoded_lt; [exact H|apply letters_scalar, V_word, Ha|apply letters_scalar, V_word, Hb].
Qed.

Lemma coll_describes : describes es coll.
Proof.
  constructor; cbn [terms comps docs universe coll].
  - split; [exact terms_sorted|]. intros w. rewrite in_map_iff. split.
    + intros (v & <- & H). exists v. split; [now apply V_in|reflexivity].
    + intros (v & H & ->). exists v. split; [reflexivity|now apply V_in].
  - exact rows_docs.
  - transitivity (map (fun e : nat * list (list N) => map encoded (snd e)) (map snd rows)); [|now rewrite rows_es]. rewrite !map_map. apply map_ext_in. intros r Hr. now rewrite words_ids.
  - reflexivity.
Qed.

Lemma max_doc : (N.of_nat (fold_right Nat.max O (map fst es)) < 4294967294)%N.
Proof.
  assert (H : fold_right Nat.max O (map fst es) < N.to_nat 4294967294); [|lia]. apply fold_max_lt; [lia|]. apply Forall_forall. intros x Hx. apply in_map_iff in Hx as (e & <- & He).
  pose proof (vi_small es Hv) as HH. rewrite Forall_forall in HH. specialize (HH e He). lia.
Qed.

Lemma coll_wf : wf_collection coll.
Proof.
  constructor; cbn [terms comps docs universe coll].
  - split; [exact terms_sorted|]. split.
    + destruct first_entry as (e & He). destruct (entry_ok e He) as (Hl & _). destruct (snd e) as [|w ws] eqn:Ew; [cbn in Hl; lia|].
      assert (H : In w V) by (apply V_in; exists e; rewrite Ew; split; [exact He|now left]). intros E. apply map_eq_nil in E. rewrite E in H. destruct H.
    + apply Forall_forall. intros w Hw. apply in_map_iff in Hw as (v & <- & Hv'). destruct (V_word v Hv') as (Hw & Hl). split.
      * eapply Forall_impl; [|exact (encoded_bytes v (proj2 Hw))]. intros b (Hb & _). lia.
      * pose proof (length_encoded v). destruct Hw as (H0 & _). destruct v; [congruence|]. cbn [length] in *. lia.
  - split; [|split].
    + apply (lex_sorted_map (fun r : trow => join (snd (snd r)))).
      * intros a b Ha Hb H. apply join_order; [| | |exact H].
        -- destruct (entry_ok _ (rows_in a Ha)) as (_ & Hw & _). eapply Forall_impl; [exact word_above|exact Hw].
        -- destruct (entry_ok _ (rows_in b Hb)) as (_ & Hw & _). eapply Forall_impl; [exact word_above|exact Hw].
        -- intros v w Hv' Hw Hlt. pose proof (index_mono V v w V_sorted (rows_words a v Ha Hv') (rows_words b w Hb Hw) Hlt). unfold id_of. lia.
      * pose proof (vi_sorted es Hv) as Hs. rewrite <- rows_es in Hs. rewrite map_map in Hs. exact Hs.
    + intros E. apply map_eq_nil in E. pose proof rows_len as Hl. rewrite E in Hl. destruct first_entry as (e & He). symmetry in Hl. apply length_zero_iff_nil in Hl. rewrite Hl in He. destruct He.
    + apply Forall_forall. intros c Hc. apply in_map_iff in Hc as (r & <- & Hr). split.
      * apply Forall_forall. intros x Hx. apply in_map_iff in Hx as (w & <- & Hw). pose proof (index_lt V w (rows_words r w Hr Hw)). pose proof V_few. unfold id_of. lia.
      * unfold ids_of. rewrite map_length. exact (proj1 (entry_ok _ (rows_in r Hr))).
  - apply Forall_forall. intros c Hc. apply in_map_iff in Hc as (r & <- & Hr). apply Forall_forall. intros x Hx. apply in_map_iff in Hx as (w & <- & Hw).
    rewrite map_length. exact (proj2 (id_pos V w (rows_words r w Hr Hw))).
  - intros x Hx. rewrite map_length in Hx. destruct (nth_error V (x - 1)) as [w|] eqn:E; [|apply nth_error_None in E; lia].
    assert (Hw : In w V) by exact (nth_error_In _ _ E). pose proof (proj1 (V_in w) Hw) as (e & He & Hwe). destruct (in_rows e He) as (r & Hr & Er). exists (ids_of V r). split; [now apply in_map|].
    unfold ids_of. rewrite Er. apply in_map_iff. exists w. split; [|exact Hwe]. unfold id_of. f_equal. pose proof (index_nth V w Hw) as E2.
    assert (index V w = x - 1); [|lia]. pose proof (lex_sorted_NoDup _ V_sorted) as Hnd. rewrite NoDup_nth_error in Hnd. apply Hnd; [now apply index_lt|congruence].
  - rewrite !map_length. reflexivity.
  - rewrite rows_docs. exact (vi_ids es Hv).
  - rewrite rows_docs. apply Forall_forall. intros d Hd. pose proof (fold_max_ge _ _ Hd). lia.
  - pose proof max_doc. lia.
  - apply Forall_forall. intros c Hc. apply in_map_iff in Hc as (r & <- & Hr). rewrite words_ids by exact Hr. rewrite encoded_concat. exact (proj2 (proj2 (entry_ok _ (rows_in r Hr)))).
  - rewrite !map_length, rows_len. split; [exact (vi_few es Hv)|exact V_few].
Qed.

Lemma levels_coll : longest_row rows = num_levels (comps coll).
Proof. unfold longest_row, num_levels. cbn [comps coll]. rewrite map_map. f_equal. apply map_ext. intros r. unfold ids_of. now rewrite map_length. Qed.

(** What the scripts write. *)
Lemma preprocess_coll : exists t, preprocess input = Ok t /\ holds_collection coll t /\ numbers (stats_of es coll) (t_stats t).
Proof.
  pose proof (table_columns _ _ Htab) as Hcol. fold rows in Hcol. change (map (fun p => fst p :: snd (snd p)) rows) with (map columns_of rows) in Hcol.
  assert (Hdict : extract_dict input = flat_map (fun w => w ++ NL) V) by exact (extract_dict_ok _ _ Hcol).
  assert (HVeol : Forall no_eol V). { apply Forall_forall. intros w Hw. apply printable_eol, word_printable. exact (proj1 (V_word w Hw)). }
  assert (Hread : read_dict (extract_dict input) = numbered 1 V). { rewrite Hdict. apply read_dict_ok; [exact HVeol|apply lex_sorted_NoDup, V_sorted]. }
  unfold preprocess, map_dataset. cbn zeta. rewrite Hread.
  destruct (map_lines_ok V rows (read_lines input) 0 128 Hcol rows_ok) as (longest & Hlg & Hlong & Emap); [lia| |].
  { apply Forall_forall. intros r Hr. pose proof (proj2 (proj2 (entry_ok _ (rows_in r Hr)))). pose proof (length_encoded (concat (snd (snd r)))). lia. }
  rewrite Emap. cbn [bind]. rewrite numbered_length. unfold build_stats.
  destruct (stat_lines_ok V rows (read_lines (flat_map (fun r => join_space (mapped_row V r) ++ NL) rows)) {| sc_levels := []; sc_prev := []; sc_universe := 0; sc_lines := 0 |} 0)
    as (s & Es & Hk & Hb & Hlines & Huni); [exact (mapped_read V rows rows_ok)|exact rows_ok|reflexivity|constructor|reflexivity|].
  pose proof (stat_lines_levels V rows _ _ s (fun _ => 0) 0 [] (mapped_read V rows rows_ok) Es eq_refl (fun _ _ => eq_refl) eq_refl (le_n 0)) as Hlev. cbn [Nat.add] in Hlev. rewrite Nat.max_0_l, levels_coll in Hlev.
  rewrite Es. cbn [bind]. cbn [sc_lines sc_universe] in Hlines, Huni. rewrite Nat.max_0_l in Hk. cbn [Nat.add] in Hlines. rewrite N.max_0_l in Huni.
  assert (Huni' : sc_universe s = N.of_nat (fold_right Nat.max O (map fst es))) by (rewrite <- rows_docs; exact Huni). clear Huni. rename Huni' into Huni.
  assert (Esort : sorted (fun a b : nat * nat => fst a <? fst b) (sc_levels s) = sc_levels s).
  { apply (sorted_id _ (fun a b : nat * nat => fst a < fst b)); [intros a b; apply Nat.ltb_lt|intros a; lia|intros a b c0; lia|].
    assert (Hss : StronglySorted lt (map fst (sc_levels s))) by (rewrite Hk; apply ssorted_seq). clear -Hss. induction (sc_levels s) as [|a l IH]; [constructor|].
    cbn [map] in Hss. apply StronglySorted_inv in Hss as (H1 & H2). constructor; [now apply IH|]. apply Forall_forall. intros x Hx. rewrite Forall_forall in H2. apply H2. now apply in_map. }
  rewrite Esort. rewrite Hlines, Huni.
  set (nums := [N.of_nat (length V); N.of_nat longest; N.of_nat (length rows); (N.of_nat (fold_right Nat.max O (map fst es)) + 1)%N; N.of_nat (length (sc_levels s))] ++ map (fun kv : nat * nat => N.of_nat (snd kv)) (sc_levels s)).
  match goal with |- context[build_inverted_and_forward _ _ ?x] => set (st := x) end.
  assert (Est : st = flat_map (fun l => l ++ NL) (map str nums)).
  { unfold st, nums. rewrite map_app, flat_map_app. cbn [map flat_map]. rewrite map_map, <- !app_assoc. cbn [app]. repeat f_equal.
    clear. induction (sc_levels s) as [|a l IH]; [reflexivity|]. cbn [flat_map map]. now rewrite IH. }
  assert (Hst : read_lines st = map (fun l => l ++ NL) (map str nums)).
  { rewrite Est. apply read_written. apply Forall_forall. intros l Hl. apply in_map_iff in Hl as (x & <- & _). exact (printable_eol _ (numeral_printable _ _ (str_numeral x))). }
  unfold build_inverted_and_forward. cbn zeta. rewrite Hread, Hst. unfold nums at 1. cbn [app map readline]. rewrite (int_line _ _ (str_numeral (N.of_nat (length V)))). cbn [bind].
  rewrite (int_line _ _ (str_numeral (N.of_nat (fold_right Nat.max O (map fst es)) + 1))). cbn [bind]. rewrite Nat2N.id.
  set (u := N.to_nat (N.of_nat (fold_right Nat.max O (map fst es)) + 1)). assert (Hu : u = universe coll) by (unfold u; cbn [universe coll]; lia).
  destruct (post_lines_ok V rows (read_lines input) (repeat [] (length V + 1)) (repeat [] u) Hcol rows_ok) as (inv & fwd & Epost & Hli & Hlf & Hinv & Hfwd).
  { apply repeat_length. }
  { apply Forall_forall. intros r Hr. rewrite repeat_length, Hu. pose proof (wf_docs_lt _ coll_wf) as HH. rewrite Forall_forall in HH. apply HH. cbn [docs coll]. now apply in_map. }
  { rewrite rows_docs. exact (vi_ids es Hv). }
  rewrite Epost. cbn [bind]. eexists. split; [reflexivity|]. rewrite repeat_length in Hli, Hlf.
  assert (Efwd : fwd = map (forward_list coll) (seq 0 (universe coll))).
  { apply (nth_ext _ _ [] []); [rewrite map_length, seq_length; congruence|]. intros d Hd. rewrite Hfwd. rewrite (nth_indep (map (forward_list coll) _) [] (forward_list coll 0)) by (rewrite map_length, seq_length; congruence).
    rewrite map_nth, seq_nth by congruence. unfold forward_list. cbn [Nat.add docs comps coll]. destruct (existsb (Nat.eqb d) (map doc_of rows)) eqn:Ex; [reflexivity|].
    rewrite nth_repeat. destruct (find_doc (map doc_of rows) (map (ids_of V) rows) d) as [|y l] eqn:Ef; [reflexivity|]. exfalso.
    destruct (find_doc_inv (map doc_of rows) (map (ids_of V) rows) d y) as (i & x & H1 & _); [rewrite Ef; now left|].
    assert (existsb (Nat.eqb d) (map doc_of rows) = true); [|congruence]. apply existsb_exists. exists d. split; [exact (nth_error_In _ _ H1)|apply Nat.eqb_refl]. }
  assert (Einv : map (fun l => sorted N.ltb (fold_left (set_add N.eqb) l [])) (tl inv) = map (fun x => map N.of_nat (posting_list coll x)) (seq 1 (length V))).
  { assert (Ht : tl inv = map (fun x => nth x inv []) (seq 1 (length V))).
    { destruct inv as [|l0 inv0]; [cbn in Hli; lia|]. cbn [tl]. cbn [length] in Hli. rewrite <- seq_shift, map_map. cbn [nth].
      apply (nth_ext _ _ [] []); [rewrite map_length, seq_length; lia|]. intros i Hi. rewrite (nth_indep (map _ _) [] (nth 0 inv0 [])) by (rewrite map_length, seq_length; lia).
      rewrite (map_nth (fun x => nth x inv0 [])), seq_nth by lia. reflexivity. }
    rewrite Ht, map_map. apply map_ext_in. intros x Hx. apply (strict_unique N.lt).
    - exact N.lt_irrefl.
    - exact N.lt_trans.
    - apply (sorted_sorted N.ltb N.lt).
      + exact N.ltb_lt.
      + exact N.lt_trans.
      + exact N.lt_total.
      + apply (fold_add_nodup N.eqb N.eqb_spec). constructor.
    - apply ssorted_map_of_nat. unfold posting_list. apply ssorted_filter, ssorted_seq.
    - intros d. pose proof (sorted_perm N.ltb (fold_left (set_add N.eqb) (nth x inv []) [])) as HP.
      assert (E : In d (sorted N.ltb (fold_left (set_add N.eqb) (nth x inv []) [])) <-> In d (nth x inv [])).
      { split; intros H.
        - apply (Permutation_in _ HP) in H. apply (fold_add_in N.eqb N.eqb_spec) in H as [H|[]]. exact H.
        - apply (Permutation_in _ (Permutation_sym HP)). apply (fold_add_in N.eqb N.eqb_spec). now left. }
      rewrite E, Hinv, nth_repeat. cbn [In]. rewrite in_map_iff. unfold posting_list, forward_list. cbn [docs comps coll]. split.
      + intros [[]|(r & Hr & -> & Hxr)]. exists (doc_of r). split; [reflexivity|]. apply filter_In. split.
        * apply in_seq. pose proof (wf_docs_lt _ coll_wf) as HH. rewrite Forall_forall in HH. specialize (HH (doc_of r)). cbn [docs coll] in HH. specialize (HH (in_map doc_of _ _ Hr)). cbn [Nat.add]. split; [lia|exact HH].
        * apply existsb_exists. exists (N.of_nat x). split; [|apply N.eqb_refl]. destruct (In_nth_error _ _ Hr) as (i & Hi).
          rewrite (find_doc_found _ (map (ids_of V) rows) i (doc_of r) (ids_of V r)); [exact Hxr|exact (wf_docs_nodup _ coll_wf)|rewrite nth_error_map, Hi; reflexivity..].
      + intros (d' & <- & Hd). apply filter_In in Hd as (_ & Hd). apply existsb_exists in Hd as (y & Hy & Ey). apply N.eqb_eq in Ey. subst y.
        destruct (find_doc_inv _ _ _ _ Hy) as (i & z & H1 & H2 & H3). rewrite nth_error_map in H1, H2. destruct (nth_error rows i) as [r|] eqn:Er; [|discriminate]. cbn [option_map] in H1, H2.
        injection H1 as <-. injection H2 as <-. right. exists r. split; [exact (nth_error_In _ _ Er)|]. auto. }
  assert (Elen : length (sc_levels s) = num_levels (comps coll)) by (rewrite <- levels_coll, <- (map_length fst), Hk, seq_length; reflexivity).
  assert (Hnums : nums = stats_of es coll).
  { unfold nums, stats_of. cbn [app]. rewrite Elen. cbn [terms comps docs universe coll]. rewrite !map_length. replace (longest_text es) with longest.
    - replace (N.of_nat (S (fold_right Nat.max O (map fst es)))) with (N.of_nat (fold_right Nat.max O (map fst es)) + 1)%N by lia. do 5 f_equal. rewrite Hlev. unfold table_of. rewrite map_map. apply map_ext. intros i. cbn [snd]. f_equal.
      rewrite news_all.
      + unfold nodes, level_nodes. rewrite map_map. reflexivity.
      + pose proof (sorted_terminated (comps coll)) as HH. cbn [comps coll] in HH. rewrite map_map in HH. apply HH; [|exact (proj1 (wf_comps _ coll_wf))].
        pose proof (proj2 (proj2 (wf_comps _ coll_wf))) as HF. eapply Forall_impl; [|exact HF]. intros c0 (Hc0 & _). eapply Forall_impl; [|exact Hc0]. cbn beta. intros x0. lia.
    - rewrite Hlong. cbn [Nat.max]. unfold longest_text. rewrite <- rows_es, map_map. reflexivity. }
  assert (Hstats : numbers nums (encode st)).
  { assert (Hasc : ascii st). { rewrite Est. apply ascii_flat. intros l Hl. apply in_map_iff in Hl as (x & <- & _). apply ascii_app; [apply ascii_str|exact ascii_nl]. }
    rewrite encode_encoded. rewrite (encoded_ascii st Hasc), Est.
    pose proof (numbers_lines (map (fun x => [x]) nums)) as Hn. rewrite (concat_single (fun x => x)), map_id, flat_map_map in Hn. cbn [map join_space] in Hn. rewrite flat_map_map. exact Hn. }
  cbn [t_stats]. split; [|rewrite <- Hnums; exact Hstats].
  constructor; cbn [t_stats t_dict t_mapped t_inverted t_forward].
  - exists (N.of_nat longest), (map (fun kv : nat * nat => N.of_nat (snd kv)) (sc_levels s)). split; [lia|]. split; [rewrite map_length; exact Elen|]. split.
    + apply Forall_forall. intros x Hx. apply in_map_iff in Hx as (kv & <- & Hkv). rewrite Forall_forall in Hb. specialize (Hb kv Hkv). cbn beta in Hb. pose proof (vi_few es Hv). rewrite rows_len in Hlines. lia.
    + cbn [terms comps docs universe coll]. rewrite !map_length.
      replace (N.of_nat (S (fold_right Nat.max O (map fst es)))) with (N.of_nat (fold_right Nat.max O (map fst es)) + 1)%N by lia. change (map (ids_of V) rows) with (comps coll). rewrite <- Elen.
      exact Hstats.
  - rewrite Hdict. rewrite encode_encoded. cbn [terms coll].
    rewrite encoded_flat. pose proof (layout_lines (map (fun w => [encoded w]) V)) as HL. rewrite concat_single, flat_map_map in HL. cbn [join_space] in HL.
    apply HL. apply Forall_forall. intros ws Hws. apply in_map_iff in Hws as (w & <- & Hw). constructor; [|constructor]. destruct (V_word w Hw) as ((H0 & Hl) & _). split.
    + destruct w as [|a w]; [congruence|]. unfold encoded. cbn [flat_map]. pose proof (code_nonempty a). destruct (code a); [congruence|discriminate].
    + eapply Forall_impl; [|exact (encoded_bytes w Hl)]. intros b (Hb32 & _). unfold white. lia.
  - assert (Hasc : ascii (flat_map (fun r => join_space (mapped_row V r) ++ NL) rows)).
    { apply ascii_flat. intros r Hr. apply ascii_app; [|exact ascii_nl]. apply ascii_join. constructor; [exact (ascii_numeral _ _ (rows_numeral r Hr))|]. apply Forall_app. split; [apply ascii_strs|]. constructor; [apply ascii_str|constructor]. }
    rewrite encode_encoded. rewrite (encoded_ascii _ Hasc). cbn [docs comps coll].
    rewrite (map_map doc_of N.of_nat), combine_map, map_map. unfold record_numbers. cbn [fst snd]. exists (concat (map (mapped_row V) rows)). split.
    + pose proof rows_numeral as Hrn. clear -Hrn. revert Hrn. generalize rows. intros l Hrn. induction l as [|r l IH]; [constructor|]. cbn [map concat]. apply Forall2_app; [|apply IH; intros; apply Hrn; now right].
      unfold mapped_row. constructor; [apply Hrn; now left|]. apply Forall2_app; [apply forall2_str|]. constructor; [apply str_numeral|constructor].
    + pose proof (layout_lines (map (mapped_row V) rows)) as HL. rewrite flat_map_map in HL. apply HL. apply Forall_forall. intros ws Hws. apply in_map_iff in Hws as (r & <- & Hr).
      constructor; [exact (numeral_solid _ _ (rows_numeral r Hr))|].
      apply Forall_app. split; [|constructor; [apply str_solid|constructor]]. apply Forall_forall. intros w Hw. apply in_map_iff in Hw as (x & <- & _). apply str_solid.
  - rewrite encode_encoded. rewrite encoded_ascii by (apply ascii_flat; intros; apply ascii_list_line). cbn [terms coll]. rewrite map_length.
    pose proof (numbers_counted (map (fun l => sorted N.ltb (fold_left (set_add N.eqb) l [])) (tl inv))) as HN.
    rewrite Einv, map_map in HN. rewrite <- Einv, flat_map_map in HN. exact HN.
  - rewrite encode_encoded. rewrite encoded_ascii by (apply ascii_flat; intros; apply ascii_list_line). pose proof (numbers_counted fwd) as HN. rewrite Efwd, map_map in HN. rewrite Efwd. exact HN.
Qed.
End Input.
End Python.
