(** Proofs: queries are chosen, and the others stay a valid input. *)
From Coq Require Import Permutation.
From Verif Require Import Base S_Python S_Order P_Order S_Json S_Text S_Iter S_Trie S_Collection M_Input S_Prep M_Prep P_PrepText P_PrepDict P_PrepRows P_Prep M_Filter S_Filter.
Local Open Scope nat_scope.

Lemma join_same ws : join_space ws = join ws.
Proof. induction ws as [|w ws IH]; [reflexivity|]. cbn [join_space join]. destruct ws; [reflexivity|]. now rewrite IH. Qed.
Lemma filter_map {A B} (f : A -> B) p l : filter p (map f l) = map f (filter (fun x => p (f x)) l).
Proof. induction l as [|x l IH]; [reflexivity|]. cbn [map filter]. destruct (p (f x)); cbn [map]; now rewrite IH. Qed.
Lemma combine_split_map {A B} (l : list (A * B)) : combine (map fst l) (map snd l) = l.
Proof. induction l as [|(a, b) l IH]; [reflexivity|]. cbn [map combine fst snd]. now rewrite IH. Qed.
Lemma NoDup_firstn {A} n (l : list A) : NoDup l -> NoDup (firstn n l).
Proof.
  intros H. revert n. induction H as [|x l Hx H IH]; intros [|n]; cbn [firstn]; constructor; [|apply IH]. intros Hi. apply Hx. rewrite <- (firstn_skipn n l). apply in_or_app. now left.
Qed.
Lemma NoDup_filter' {A} f (l : list A) : NoDup l -> NoDup (filter f l).
Proof. apply NoDup_filter. Qed.

(** ** partition_queries_by_length.py *)
Section Lists.
Context {py : python}.
Definition dispatch (xs : list (list (list N))) (s : list (list (list N))) : list (list (list N)) :=
  fold_left (fun strings x => upd strings (shard x) (nth (shard x) strings [] ++ [query_line x])) xs s.
Lemma query_lists_columns input : query_lists input = dispatch (map columns (read_lines input)) (repeat [] 7).
Proof. unfold query_lists, dispatch. generalize (repeat (@nil (list N)) 7). induction (read_lines input) as [|l ls IH]; intros s; [reflexivity|]. cbn [map fold_left]. apply IH. Qed.
Lemma shard_lt x : shard x < 7.
Proof. unfold shard. destruct (length x) as [|[|l]]; [lia|lia|]. destruct (Nat.ltb_spec 6 (S l)); lia. Qed.
Lemma dispatch_nth xs : forall s i, length s = 7 -> nth i (dispatch xs s) [] = nth i s [] ++ map query_line (filter (fun x => shard x =? i) xs).
Proof.
  induction xs as [|x xs IH]; intros s i Hs; [cbn; now rewrite app_nil_r|]. cbn [dispatch fold_left filter]. pose proof (shard_lt x) as Hx.
  change (fold_left _ xs ?s') with (dispatch xs s'). rewrite IH by (rewrite upd_length; exact Hs). rewrite nth_upd by lia.
  destruct (Nat.eqb_spec (shard x) i) as [->|]; [|reflexivity]. cbn [map]. now rewrite <- app_assoc.
Qed.
Lemma shard_class (r : trow) : 0 < length (snd (snd r)) -> S (shard (columns_of r)) = class (snd r).
Proof.
  intros H. unfold shard, class, columns_of. cbn [length]. destruct (length (snd (snd r))) as [|l]; [lia|]. destruct (Nat.ltb_spec 6 (S l)); lia.
Qed.
End Lists.

(** ** filter_dataset.py *)
Lemma lines_row (ws : list (list N)) l e text : @row py2 ws l -> e = [10%N] \/ e = [13; 10]%N -> lines (l ++ e ++ text) = (l ++ e) :: lines text.
Proof.
  intros Hr He. pose proof (row_eol _ _ Hr) as Hn. destruct He as [->| ->]; cbn [app].
  - now rewrite lines_nl by now apply no_nl.
  - replace (l ++ 13%N :: 10%N :: text) with ((l ++ [13%N]) ++ 10%N :: text) by now rewrite <- app_assoc.
    rewrite lines_nl by (apply Forall_app; split; [now apply no_nl|repeat constructor; discriminate]). now rewrite <- app_assoc.
Qed.
Lemma filter_table f rows text : @table py2 rows text -> @table py2 (filter f rows) (concat (filter (fun line => f (@columns py2 line)) (lines text))).
Proof.
  induction 1 as [|ws l Hr Hl|ws l e rows text Hr He Ht IH].
  - apply tab_nil.
  - rewrite lines_last by (exact (row_eol _ _ Hr) || exact Hl). cbn [filter]. rewrite (proj1 (row_columns _ _ Hr)). destruct (f ws); cbn [concat]; [rewrite app_nil_r; now apply tab_last|apply tab_nil].
  - rewrite (lines_row ws l e text Hr He). cbn [filter]. assert (E : @columns py2 (l ++ e) = ws) by (destruct (row_columns _ _ Hr) as (_ & H1 & H2); destruct He as [->| ->]; assumption).
    rewrite E. destruct (f ws); [|exact IH]. cbn [concat]. rewrite <- app_assoc. now apply tab_line.
Qed.
Section Filter.
Context {py : python}.
Lemma to_filter_in files s : In s (to_filter files) <-> exists file line, In file files /\ In line (read_lines file) /\ s = rstrip line.
Proof.
  unfold to_filter. assert (G : forall files acc, In s (fold_left (fun s file => fold_left (fun s line => set_add str_eqb s (rstrip line)) (read_lines file) s) files acc) <->
    In s acc \/ exists file line, In file files /\ In line (read_lines file) /\ s = rstrip line).
  { clear files. induction files as [|file files IH]; intros acc; cbn [fold_left].
    - split; [now left|]. intros [H|(? & ? & [] & _)]; exact H.
    - rewrite IH. assert (G2 : forall ls acc, In s (fold_left (fun s line => set_add str_eqb s (rstrip line)) ls acc) <-> In s acc \/ exists line, In line ls /\ s = rstrip line).
      { clear. induction ls as [|l ls IH]; intros acc; cbn [fold_left]; [split; [now left|]; intros [H|(? & [] & _)]; exact H|]. rewrite IH, (set_add_in str_eqb str_eqb_spec). cbn [In]. split.
        - intros [[E|H]|(line & H & E)]; [right; exists l; auto|now left|right; exists line; auto].
        - intros [H|(line & [<-|H] & E)]; [left; now right|left; now left|right; eauto]. }
      rewrite G2. cbn [In]. split.
      + intros [[H|(line & H & E)]|(f & line & H & H2 & E)]; [now left|right; exists file, line; auto|right; exists f, line; auto].
      + intros [H|(f & line & [<-|H] & H2 & E)]; [left; now left|left; right; eauto|right; eauto 6]. }
  rewrite G. cbn [In]. intuition.
Qed.

(** ** Together *)
Variables (shuffle : nat -> list (list N) -> list (list N)) (n : nat).
Hypothesis Hsh : forall i l, Permutation (shuffle i l) l.
Variables (es : entries) (ids : list (list N)) (input : list N).
Hypothesis Hv : valid_input es.
Hypothesis Hids : Forall2 numeral ids (map (fun e => N.of_nat (fst e)) es).
Hypothesis Htab : table (map (fun p => fst p :: snd (snd p)) (combine ids es)) input.
Let rows : list trow := combine ids es.
Let Hrows : map snd rows = es := rows_es es ids Hids.
Lemma rows_long r : In r rows -> 0 < length (snd (snd r)).
Proof.
  intros Hr. assert (In (snd r) es) by (rewrite <- Hrows; now apply in_map). exact (proj1 (proj1 (entry_ok es Hv _ H))).
Qed.
Lemma nodup_es : NoDup es.
Proof. exact (NoDup_map_inv _ _ (vi_ids es Hv)). Qed.
Lemma filter_class i : map snd (filter (fun r => shard (columns_of r) =? i) rows) = filter (fun e => class e =? S i) es.
Proof.
  rewrite <- Hrows, filter_map. f_equal. apply filter_ext_in. intros r Hr. rewrite <- shard_class by now apply rows_long. destruct (Nat.eqb_spec (shard (columns_of r)) i), (Nat.eqb_spec (S (shard (columns_of r))) (S i)); congruence || reflexivity || lia.
Qed.
Lemma one_file i : exists l, partition_queries shuffle n input = map (fun i => concat (firstn n (shuffle i (nth i (query_lists input) [])))) (seq 0 7) /\
  concat (firstn n (shuffle i (nth i (query_lists input) []))) = one_per_line l /\
  (forall e, In e l -> In e es /\ class e = S i) /\ NoDup l /\ length l = Nat.min n (length (filter (fun e => class e =? S i) es)).
Proof.
  pose proof (table_columns _ _ Htab) as Hcol. fold rows in Hcol. change (map (fun p => fst p :: snd (snd p)) rows) with (map columns_of rows) in Hcol.
  assert (E : nth i (query_lists input) [] = map (fun e => join (snd e) ++ [10%N]) (filter (fun e => class e =? S i) es)).
  { rewrite query_lists_columns, Hcol, dispatch_nth by reflexivity. replace (nth i (repeat [] 7) []) with (@nil (list N)) by (do 8 (destruct i as [|i]; [reflexivity|]); reflexivity).
    cbn [app]. rewrite filter_map, map_map, <- filter_class, map_map. apply map_ext. intros r. unfold query_line, NL. cbn [columns_of tl]. now rewrite join_same. }
  rewrite E. pose proof (Hsh i (map (fun e => join (snd e) ++ [10%N]) (filter (fun e => class e =? S i) es))) as HP. apply Permutation_map_inv in HP as (l3 & E3 & HP).
  exists (firstn n l3). split; [reflexivity|]. split; [|split; [|split]].
  - rewrite E3, firstn_map. unfold one_per_line. now rewrite flat_map_concat_map.
  - intros e He. assert (Hi : In e l3) by (rewrite <- (firstn_skipn n l3); apply in_or_app; now left). apply (Permutation_in _ (Permutation_sym HP)) in Hi. apply filter_In in Hi as (H1 & H2).
    split; [exact H1|]. now apply Nat.eqb_eq.
  - apply NoDup_firstn. apply (Permutation_NoDup HP). apply NoDup_filter', nodup_es.
  - rewrite firstn_length. now rewrite (Permutation_length HP).
Qed.
Lemma files_chosen : exists chosen, chooses n es chosen /\ partition_queries shuffle n input = map one_per_line chosen.
Proof.
  assert (G : forall m, m <= 7 -> exists chosen, length chosen = m /\ map (fun i => concat (firstn n (shuffle i (nth i (query_lists input) [])))) (seq 0 m) = map one_per_line chosen /\
    forall i, i < m -> (forall e, In e (nth i chosen []) -> In e es /\ class e = S i) /\ NoDup (nth i chosen []) /\ length (nth i chosen []) = Nat.min n (length (filter (fun e => class e =? S i) es))).
  { induction m as [|m IH]; intros Hm; [exists []; repeat split; try reflexivity; intros; lia|]. destruct IH as (chosen & Hl & E & H); [lia|]. destruct (one_file m) as (l & _ & El & H1 & H2 & H3).
    exists (chosen ++ [l]). split; [rewrite app_length; cbn [length]; lia|]. split; [rewrite seq_S, !map_app, E; cbn [map Nat.add]; now rewrite El|].
    intros i Hi. destruct (Nat.eq_dec i m) as [->|Hne].
    - rewrite app_nth2, Hl, Nat.sub_diag by lia. cbn [nth]. auto.
    - rewrite app_nth1 by lia. apply H. lia. }
  destruct (G 7 (le_n _)) as (chosen & Hl & E & H). exists chosen. split; [|exact E]. constructor; [exact Hl| | |].
  - intros i e He. destruct (Nat.lt_ge_cases i 7) as [Hi|Hi]; [now apply H|]. rewrite nth_overflow in He by lia. destruct He.
  - intros i. destruct (Nat.lt_ge_cases i 7) as [Hi|Hi]; [now apply H|]. rewrite nth_overflow by lia. constructor.
  - intros i Hi. now apply H.
Qed.
Lemma word_eol e : In e es -> no_eol (join (snd e)).
Proof.
  intros He. rewrite <- join_same. apply join_eol. destruct (entry_ok es Hv e He) as (_ & Hw & _). eapply Forall_impl; [|exact Hw]. intros w Hx. apply printable_eol. now apply word_printable.
Qed.
Lemma join_entry e e' : In e es -> In e' es -> join (snd e) = join (snd e') -> e = e'.
Proof.
  intros He He' E. pose proof (vi_sorted es Hv) as Hs. apply lex_sorted_NoDup in Hs. clear -He He' E Hs. revert He He' Hs. generalize es. induction es0 as [|a l IH]; intros H H' Hs; [destruct H|].
  cbn [map] in Hs. apply NoDup_cons_iff in Hs as (Hn & Hs). destruct H as [<-|H], H' as [<-|H']; [reflexivity| | |now apply IH].
  - exfalso. apply Hn. rewrite E. now apply (in_map (fun e => join (snd e))).
  - exfalso. apply Hn. rewrite <- E. now apply (in_map (fun e => join (snd e))).
Qed.
End Filter.

Lemma ssorted_sub {A} (R : A -> A -> Prop) f l : Sorted.StronglySorted R l -> Sorted.StronglySorted R (filter f l).
Proof.
  induction 1 as [|a l H IH Ha]; [constructor|]. cbn [filter]. destruct (f a); [|exact IH]. constructor; [exact IH|]. apply Forall_forall. intros x Hx. apply filter_In in Hx as (Hx & _).
  rewrite Forall_forall in Ha. now apply Ha.
Qed.
Lemma map_filter_sub {A B} (g : A -> B) (R : B -> B -> Prop) f l : Sorted.StronglySorted R (map g l) -> Sorted.StronglySorted R (map g (filter f l)).
Proof.
  induction l as [|a l IH]; intros H; [constructor|]. cbn [map] in H. apply Sorted.StronglySorted_inv in H as (H & Ha). cbn [filter]. destruct (f a); [|now apply IH]. cbn [map]. constructor; [now apply IH|].
  apply Forall_forall. intros x Hx. apply in_map_iff in Hx as (y & <- & Hy). apply filter_In in Hy as (Hy & _). rewrite Forall_forall in Ha. apply Ha. now apply in_map.
Qed.
Lemma nodup_map_filter {A B} (g : A -> B) f l : NoDup (map g l) -> NoDup (map g (filter f l)).
Proof.
  induction l as [|a l IH]; intros H; [constructor|]. cbn [map] in H. apply NoDup_cons_iff in H as (Hn & H). cbn [filter]. destruct (f a); [|now apply IH]. cbn [map]. constructor; [|now apply IH].
  intros Hi. apply Hn. apply in_map_iff in Hi as (y & E & Hy). apply filter_In in Hy as (Hy & _). rewrite <- E. now apply in_map.
Qed.
Lemma filter_len {A} f (l : list A) : length (filter f l) <= length l.
Proof. induction l as [|a l IH]; [reflexivity|]. cbn [filter length]. destruct (f a); cbn [length]; lia. Qed.
Lemma valid_sub (py : python) es f : valid_input es -> filter f es <> [] -> valid_input (filter f es).
Proof.
  intros [H1 H2 H3 H4 H5 H6 H7] Hne. constructor.
  - exact Hne.
  - apply Forall_forall. intros e He. apply filter_In in He as (He & _). rewrite Forall_forall in H2. now apply H2.
  - apply ssorted_lex, map_filter_sub, lex_ssorted, H3.
  - now apply nodup_map_filter.
  - apply Forall_forall. intros e He. apply filter_In in He as (He & _). rewrite Forall_forall in H5. now apply H5.
  - pose proof (filter_len f es). lia.
  - destruct H7 as (vocab & Hl & Hin). exists vocab. split; [exact Hl|]. intros w (e & He & Hw). apply Hin. exists e. split; [|exact Hw]. now apply filter_In in He as (He & _).
Qed.

Lemma filter_ok shuffle n es input : (forall i l, Permutation (shuffle i l) l) -> @valid_input py2 es -> @is_input py2 es input ->
  exists chosen rest filtered, chooses n es chosen /\ @partition_queries py2 shuffle n input = map one_per_line chosen /\
    @filter_dataset py2 input (map one_per_line chosen) = Ok filtered /\
    others es chosen rest /\ @is_input py2 rest filtered /\ (rest <> [] -> @valid_input py2 rest).
Proof.
  intros Hsh Hv (ids & Hids & Htab). destruct (files_chosen shuffle n Hsh es ids input Hv Hids Htab) as (chosen & Hc & Ep). set (py := py2) in *.
  set (s := to_filter (map one_per_line chosen)). set (f := fun x : list (list N) => negb (existsb (str_eqb (join_space (tl x))) s)).
  set (rows := combine ids es) in *. pose proof (rows_es es ids Hids) as Hrows. fold rows in Hrows.
  assert (Hfrom : forall e, In e (concat chosen) -> In e es).
  { intros e He. apply in_concat in He as (l & Hl & He). destruct (In_nth _ _ [] Hl) as (i & _ & <-). exact (proj1 (ch_from _ _ _ Hc i e He)). }
  assert (Hs : forall t, In t s <-> exists e, In e (concat chosen) /\ t = join (snd e)).
  { intros t. unfold s. rewrite to_filter_in.
    assert (Hread : forall l, In l chosen -> read_lines (one_per_line l) = map (fun e => join (snd e) ++ NL) l).
    { intros l Hl. unfold one_per_line. rewrite <- (flat_map_map (fun t => t ++ NL) (fun e => join (snd e))). rewrite read_written; [now rewrite map_map|].
      apply Forall_forall. intros t' Ht'. apply in_map_iff in Ht' as (e & <- & He). apply (word_eol es Hv). apply Hfrom. apply in_concat. eauto. }
    split.
    - intros (file & line & Hf & Hl & ->). apply in_map_iff in Hf as (l & <- & Hl2). rewrite Hread in Hl by exact Hl2. apply in_map_iff in Hl as (e & <- & He). exists e.
      assert (Hec : In e (concat chosen)) by (apply in_concat; eauto). split; [exact Hec|]. unfold NL. apply rstrip_nl, no_nl, (word_eol es Hv), Hfrom, Hec.
    - intros (e & He & ->). pose proof He as Hec. apply in_concat in He as (l & Hl & He). exists (one_per_line l), (join (snd e) ++ NL). split; [now apply in_map|]. rewrite Hread by exact Hl. split; [now apply (in_map (fun e => join (snd e) ++ NL))|].
      unfold NL. symmetry. apply rstrip_nl, no_nl, (word_eol es Hv), Hfrom, Hec. }
  assert (Hf : forall r : trow, f (columns_of r) = true <-> ~ In (join (snd (snd r))) s).
  { intros r. unfold f. cbn [columns_of tl]. rewrite join_same, negb_true_iff. split.
    - intros E Hi. assert (existsb (str_eqb (join (snd (snd r)))) s = true); [|congruence]. apply existsb_exists. exists (join (snd (snd r))). split; [exact Hi|]. destruct (str_eqb_spec (join (snd (snd r))) (join (snd (snd r)))); congruence.
    - intros Hi. destruct (existsb (str_eqb (join (snd (snd r)))) s) eqn:E; [|reflexivity]. apply existsb_exists in E as (t & Ht & E). destruct (str_eqb_spec (join (snd (snd r))) t); [subst t; contradiction|discriminate]. }
  set (g := fun e : nat * list (list N) => negb (existsb (str_eqb (join (snd e))) s)).
  assert (Hg : map snd (filter (fun r => f (columns_of r)) rows) = filter g es).
  { rewrite <- Hrows, filter_map. reflexivity. }
  exists chosen, (filter g es), (concat (filter (fun line => f (columns line)) (lines input))). split; [exact Hc|]. split; [exact Ep|]. split; [reflexivity|]. split; [|split].
  - intros e. rewrite <- Hg, in_map_iff. split.
    + intros (r & <- & Hr). apply filter_In in Hr as (Hr & Hfr). apply Hf in Hfr. split; [rewrite <- Hrows; now apply in_map|]. intros Hi. apply Hfr. apply Hs. eauto.
    + intros (He & Hn). pose proof He as He2. rewrite <- Hrows in He2. apply in_map_iff in He2 as (r & <- & Hr). exists r. split; [reflexivity|]. apply filter_In. split; [exact Hr|]. apply Hf. intros Hi. apply Hs in Hi as (e' & He' & E).
      apply Hn. rewrite (join_entry es Hv (snd r) e' He (Hfrom e' He') E). exact He'.
  - exists (map fst (filter (fun r => f (columns_of r)) rows)). rewrite <- Hg. split.
    + rewrite map_map. assert (HF : Forall (fun r : trow => numeral (fst r) (N.of_nat (fst (snd r)))) (filter (fun r => f (columns_of r)) rows)).
      { apply Forall_forall. intros r Hr. apply filter_In in Hr as (Hr & _). exact (rows_numeral es ids Hids r Hr). }
      clear -HF. induction HF as [|r l H HF IH]; [constructor|]. cbn [map]. now constructor.
    + rewrite combine_split_map. pose proof (filter_table f _ _ Htab) as HT. rewrite filter_map in HT. exact HT.
  - intros Hne. now apply valid_sub.
Qed.
