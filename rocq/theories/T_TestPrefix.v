(** The test of locate_prefix of the project, run on the files of a collection (C70). *)
From Coq Require Import String.
From Verif Require Import Base S_Order P_Order S_Vocab S_Parse S_Collection S_Found S_Text S_Files S_Tools S_Json S_TestPrefix P_ListContainers P_Collection.
From Verif Require Import M_Heap M_CompactEf M_Real M_Input M_TestPrefix P_Parse P_Starts P_BenchDict P_TestPrefix T_Auto1 T_Input T_Real T_Tools T_Tests.
Local Open Scope nat_scope.
Local Open Scope list_scope.

(** C70: on the files of every well-formed collection test_locate_prefix should pass: the trie and the integer dictionary find for every query exactly the completions that start
    with it. The test runs the rounds before the first one without a file. It ends normally, and it passes exactly when every query of these rounds is the start of a completion and
    all completions that start with it are found; so it fails for a query that nothing starts with (F53), and because of F1, F2 and F23. *)
Theorem C70_test_partial : forall c t fuel junk input lines files,
  wf_collection c -> plain_terms c -> holds_collection c t -> length (t_mapped t) < fuel -> collection_file c input -> query_files max_num_queries lines files ->
  exists b strs, test_prefix fuel junk t input files = Ok b /\ Forall2 (round_queries max_num_queries lines) (rounds_before (has_file lines) prefix_rounds) strs /\
    (b = true <-> Forall (Forall (fun q => occurs c q /\ all_found c q)) strs).
Proof. exact (fun c t fuel junk input lines files Hwf Hp Ht => test_prefix_ok c Hwf Hp t Ht sort_ce fuel junk input lines files sort_ce_ok). Qed.

(** It passes for queries that are completions of the collection, as preprocess.sh chooses them, if the first completion is the first term and this term has one character. *)
Definition completions_only (c : collection) (lines : nat -> option (list (list N))) : Prop :=
  forall n ls q, lines n = Some ls -> In q ls -> exists ids, In ids (comps c) /\ q = text c ids.
Theorem C70_completions : forall c t fuel junk input lines files,
  wf_collection c -> plain_terms c -> holds_collection c t -> length (t_mapped t) < fuel -> collection_file c input -> query_files max_num_queries lines files ->
  sizes_ok2 c -> length (nth 0 (terms c) []) = 1 -> nth 0 (comps c) [] = [1%N] -> completions_only c lines -> test_prefix fuel junk t input files = Ok true.
Proof.
  intros c t fuel junk input lines files Hwf Hp Ht Hf Hi Hl H17 H1 H0 Hc. destruct (C70_test_partial c t fuel junk input lines files Hwf Hp Ht Hf Hi Hl) as (b & strs & -> & Hs & Hb). f_equal. apply Hb.
  apply Forall_forall. intros qs Hqs. apply Forall_forall. intros s Hin. destruct (Forall2_In_r _ _ _ _ Hs Hqs) as (r & _ & ls & Els & Hsh).
  destruct (Forall2_In_r _ _ _ _ Hsh Hin) as (q & Hq & body & last & ts & j & Eq & Hl1 & Hl2 & -> & Hj & _).
  assert (Hq' : In q ls) by (rewrite <- (firstn_skipn max_num_queries ls); apply in_or_app; now left). destruct (Hc _ _ _ Els Hq') as (ids & Hids & Et). split.
  - exists ids. split; [exact Hids|]. rewrite <- Et, Eq. exists (skipn j last). now rewrite <- app_assoc, firstn_skipn.
  - intros ts' last' ids' Hq1 Hids' Hpre. apply (prefix_found_match c Hwf ts' last' ids' H17); [| |exact Hids'|exact (proj1 (starts_match c Hwf Hp _ ts' last' Hq1 ids' Hids' Hpre))].
    + intros Hn (z & E). destruct last' as [|y l]; [contradiction|]. assert (Hlen := f_equal (@length _) E). rewrite app_length, H1 in Hlen. cbn [length] in Hlen.
      destruct z; [now rewrite app_nil_r in E|cbn in Hlen; lia].
    + intros w rest E Hw. rewrite H0 in E. cbn [words_of map] in E. destruct ts' as [|u ts']; [|injection E as _ E; now destruct ts']. injection E as <- <-. split; [reflexivity|].
      intros v Hv _. apply (In_nth _ _ []) in Hv as (i & Hi2 & <-). destruct i as [|i]; [now left|right]. unfold word. change (N.to_nat 1 - 1) with 0.
      apply (lex_sorted_nth (terms c)); [exact (proj1 (wf_terms c Hwf))|lia].
Qed.

(** With all seven files, it fails if a query is not the start of any completion. *)
Theorem C70_unmatched_refuted : forall c t fuel junk input lines files n ls q,
  wf_collection c -> plain_terms c -> holds_collection c t -> length (t_mapped t) < fuel -> collection_file c input -> query_files max_num_queries lines files ->
  (forall m, 1 <= m <= 7 -> lines m <> None) -> 1 <= n <= 7 -> lines n = Some ls -> In q (firstn max_num_queries ls) -> ~ occurs c q -> test_prefix fuel junk t input files = Ok false.
Proof.
  intros c t fuel junk input lines files n ls q Hwf Hp Ht Hf Hi Hl Hall Hn El Hq Ho. destruct (C70_test_partial c t fuel junk input lines files Hwf Hp Ht Hf Hi Hl) as ([|] & strs & E & Hs & Hb); [|exact E].
  exfalso. assert (Hr : rounds_before (has_file lines) prefix_rounds = prefix_rounds).
  { assert (H : forall l, (forall r, In r l -> has_file lines r = true) -> rounds_before (has_file lines) l = l).
    { induction l as [|r l IH]; intros H; [reflexivity|]. cbn [rounds_before]. rewrite (H r (or_introl eq_refl)). f_equal. apply IH. intros r' H'. apply H. now right. }
    apply H. intros (me, m) Hin. unfold prefix_rounds in Hin. apply in_prod_iff in Hin as (_ & Hm). unfold has_file. cbn [snd].
    specialize (Hall m). destruct (lines m); [reflexivity|]. exfalso. apply Hall; [|reflexivity]. cbn in Hm. lia. }
  rewrite Hr in Hs. assert (Hin : In ((1, 0)%N, n) prefix_rounds) by (apply in_prod; cbn; [tauto|lia]).
  destruct (Forall2_In_l _ _ _ _ Hs Hin) as (qs & Hqs & ls' & El' & Hsh). cbn [fst snd] in El', Hsh. rewrite El in El'. injection El' as <-.
  destruct (Forall2_In_l _ _ _ _ Hsh Hq) as (s & Hin' & body & last & ts & j & Eq & _ & _ & -> & _ & Hj & _).
  destruct Hb as (Hb & _). specialize (Hb eq_refl). rewrite Forall_forall in Hb. specialize (Hb qs Hqs). rewrite Forall_forall in Hb. destruct (Hb _ Hin') as (Hocc & _).
  rewrite firstn_all2 in Hocc by (change (2 ^ 0)%N with 1%N in Hj; lia). rewrite <- Eq in Hocc. exact (Ho Hocc).
Qed.

(** The scripts write the queries with seven or more terms to the file queries.length=7+, but the test opens queries.length=7. Then it ends after the first percentage, 0, so only queries cut
    to the start of their last token are tried (F52). Without any file it passes and checks nothing. *)
Theorem C70_seven_refuted : forall lines r, lines 7 = None -> In r (rounds_before (has_file lines) prefix_rounds) -> fst r = (0, 0)%N /\ snd r <= 6.
Proof.
  intros lines r H7. unfold prefix_rounds. cbn [list_prod map app rounds_before]. assert (E : forall me, has_file lines (me, 7) = false) by (intros me; unfold has_file; cbn [snd]; now rewrite H7).
  rewrite !E. repeat match goal with |- context [if ?b then _ else _] => destruct b end; cbn [In]; intros H; repeat (destruct H as [<-|H]; [cbn; split; [reflexivity|lia]|]); destruct H.
Qed.
Theorem C70_no_files_refuted : forall c t fuel junk input files,
  wf_collection c -> plain_terms c -> holds_collection c t -> length (t_mapped t) < fuel -> collection_file c input -> files = (fun _ => None) -> test_prefix fuel junk t input files = Ok true.
Proof.
  intros c t fuel junk input files Hwf Hp Ht Hf Hi ->. destruct (C70_test_partial c t fuel junk input (fun _ => None) (fun _ => None) Hwf Hp Ht Hf Hi) as (b & strs & -> & Hs & Hb); [intros n; exact I|].
  f_equal. apply Hb. cbn in Hs. inversion Hs. constructor.
Qed.

Definition all_prefix := (C70_test_partial, C70_completions, C70_unmatched_refuted, C70_seven_refuted, C70_no_files_refuted).
Print Assumptions all_prefix.

(** Completions "a", "a b", "b", "bc a". *)
Definition coll_p : collection := {| terms := map bytes ["a"; "b"; "bc"]%string; comps := [[1]; [1; 2]; [2]; [3; 1]]%N; docs := [2; 0; 1; 3]; universe := 4 |}.
Definition texts_p : texts := {|
  t_stats := T_Input.lines ["3"; "3"; "4"; "4"; "3"; "3"; "4"; "2"]%string; t_dict := T_Input.lines ["a"; "b"; "bc"]%string; t_mapped := T_Input.lines ["2 1 0"; "0 1 2 0"; "1 2 0"; "3 3 1 0"]%string;
  t_inverted := T_Input.lines ["3 0 2 3"; "2 0 1"; "1 3"]%string; t_forward := T_Input.lines ["2 1 2"; "1 2"; "1 1"; "2 3 1"]%string |}.
Definition file_p : list N := T_Input.lines ["2 a"; "0 a b"; "1 b"; "3 bc a"]%string.
(** The files of queries: [one] and [two] with one and two terms, and empty ones up to [last]. *)
Definition lines_p (last : nat) (one two : list string) (n : nat) : option (list (list N)) :=
  if last <? n then None else Some (map bytes (match n with 1 => one | 2 => two | _ => [] end)).
Definition files_p (last : nat) (one two : list string) (n : nat) : option (list N) :=
  if last <? n then None else Some (T_Input.lines (match n with 1 => one | 2 => two | _ => [] end)).
Lemma files_p_ok last one two : forallb one_lineb (map bytes one) = true -> forallb one_lineb (map bytes two) = true ->
  Forall query_line (map bytes one) -> Forall query_line (map bytes two) -> query_files max_num_queries (lines_p last one two) (files_p last one two).
Proof.
  intros H1 H2 Q1 Q2 n. unfold lines_p, files_p. destruct (last <? n); [exact I|]. assert (F : forall l, Forall query_line l -> Forall query_line (firstn max_num_queries l)).
  { intros l H. rewrite <- (firstn_skipn max_num_queries l) in H. now apply Forall_app in H. }
  destruct n as [|[|[|n]]]; (split; [apply lines_has; auto|apply F; auto; constructor]).
Qed.
Ltac query_lines := repeat (apply Forall_cons; [split; [discriminate|split; [reflexivity|repeat constructor]]|]); constructor.
Lemma coll_p_ok : wf_collection coll_p /\ plain_terms coll_p /\ holds_collection coll_p texts_p /\ length (t_mapped texts_p) < 200 /\ collection_file coll_p file_p.
Proof.
  split; [apply wf_collectionb_ok; reflexivity|]. split; [repeat constructor|]. split; [constructor|split].
  - exists 3%N, [3; 4; 2]%N. split; [lia|]. split; [reflexivity|]. split; [repeat constructor|]. one_numbers ["3"; "3"; "4"; "4"; "3"; "3"; "4"; "2"]%string.
  - apply (layoutb_ok 200). vm_compute. reflexivity.
  - one_numbers ["2"; "1"; "0"; "0"; "1"; "2"; "0"; "1"; "2"; "0"; "3"; "3"; "1"; "0"]%string.
  - one_numbers ["3"; "0"; "2"; "3"; "2"; "0"; "1"; "1"; "3"]%string.
  - one_numbers ["2"; "1"; "2"; "1"; "2"; "1"; "1"; "2"; "3"; "1"]%string.
  - vm_compute. lia.
  - exists (map bytes ["2 a"; "0 a b"; "1 b"; "3 bc a"]%string). split; [apply lines_has; reflexivity|].
    repeat (apply Forall2_cons; [match goal with |- exists s, _ /\ ?l = _ => exists (firstn 1 l) end; split; [repeat constructor; discriminate|reflexivity]|]). constructor.
Qed.
(** Completions as queries: the test passes. *)
Example C70_nonvacuous :
  query_files max_num_queries (lines_p 7 ["b"; "a"]%string ["bc a"; "a b"]%string) (files_p 7 ["b"; "a"]%string ["bc a"; "a b"]%string) /\ sizes_ok2 coll_p /\ length (nth 0 (terms coll_p) []) = 1 /\ nth 0 (comps coll_p) [] = [1%N] /\
  completions_only coll_p (lines_p 7 ["b"; "a"]%string ["bc a"; "a b"]%string) /\ test_prefix 200 7 texts_p file_p (files_p 7 ["b"; "a"]%string ["bc a"; "a b"]%string) = Ok true.
Proof.
  split; [apply files_p_ok; try reflexivity; query_lines|]. split; [split; vm_compute; lia|]. split; [reflexivity|]. split; [reflexivity|]. split.
  - intros n ls q. unfold lines_p. destruct (7 <? n); [discriminate|]. intros E. injection E as <-. intros Hq.
    assert (H : exists i, i < 4 /\ q = text coll_p (nth i (comps coll_p) [])).
    { destruct n as [|[|[|n]]]; cbn in Hq; repeat (destruct Hq as [<-|Hq]; [|]); try destruct Hq; [exists 2|exists 0|exists 3|exists 1]; (split; [lia|reflexivity]). }
    destruct H as (i & Hi & ->). exists (nth i (comps coll_p) []). split; [now apply nth_In|reflexivity].
  - vm_compute. reflexivity.
Qed.
(** The query "bcz", which nothing starts with: the test fails, but without the file for seven terms it passes. *)
Lemma no_bcz : ~ occurs coll_p (bytes "bcz"%string).
Proof. intros (ids & H & x & E). cbn in H. repeat (destruct H as [<-|H]; [vm_compute in E; discriminate|]). destruct H. Qed.
Example C70_unmatched_nonvacuous :
  query_files max_num_queries (lines_p 7 ["bcz"]%string []) (files_p 7 ["bcz"]%string []) /\ (forall m, 1 <= m <= 7 -> lines_p 7 ["bcz"]%string [] m <> None) /\
  lines_p 7 ["bcz"]%string [] 1 = Some [bytes "bcz"%string] /\ ~ occurs coll_p (bytes "bcz"%string) /\ test_prefix 200 7 texts_p file_p (files_p 7 ["bcz"]%string []) = Ok false.
Proof.
  split; [apply files_p_ok; try reflexivity; query_lines|]. split; [intros m Hm; unfold lines_p; destruct (Nat.ltb_spec 7 m); [lia|discriminate]|]. split; [reflexivity|]. split; [exact no_bcz|]. vm_compute. reflexivity.
Qed.
Example C70_seven_nonvacuous :
  query_files max_num_queries (lines_p 6 ["bcz"]%string []) (files_p 6 ["bcz"]%string []) /\ lines_p 6 ["bcz"]%string [] 7 = None /\ test_prefix 200 7 texts_p file_p (files_p 6 ["bcz"]%string []) = Ok true.
Proof. split; [apply files_p_ok; try reflexivity; query_lines|]. split; [reflexivity|]. vm_compute. reflexivity. Qed.

(** A first term with three characters: the query "abc", a completion, fails when it is cut to "ab" (F1). *)
Definition coll_q : collection := {| terms := map bytes ["abc"; "b"]%string; comps := [[1]; [2]]%N; docs := [0; 1]; universe := 2 |}.
Definition texts_q : texts := {|
  t_stats := T_Input.lines ["2"; "4"; "2"; "2"; "2"; "2"; "2"]%string; t_dict := T_Input.lines ["abc"; "b"]%string; t_mapped := T_Input.lines ["0 1 0"; "1 2 0"]%string;
  t_inverted := T_Input.lines ["1 0"; "1 1"]%string; t_forward := T_Input.lines ["1 1"; "1 2"]%string |}.
Example C70_first_term_refuted :
  wf_collection coll_q /\ plain_terms coll_q /\ completions_only coll_q (lines_p 6 ["abc"]%string []) /\
  test_prefix 200 7 texts_q (T_Input.lines ["0 abc"; "1 b"]%string) (files_p 6 ["abc"]%string []) = Ok false /\ test_prefix 200 7 texts_q (T_Input.lines ["0 abc"; "1 b"]%string) (files_p 6 ["b"]%string []) = Ok true.
Proof.
  split; [apply wf_collectionb_ok; reflexivity|]. split; [repeat constructor|]. split; [|split; vm_compute; reflexivity].
  intros n ls q. unfold lines_p. destruct (6 <? n); [discriminate|]. intros E. injection E as <-. intros Hq. exists [1%N]. split; [now left|].
  destruct n as [|[|[|n]]]; cbn in Hq; repeat (destruct Hq as [<-|Hq]; [|]); try destruct Hq. reflexivity.
Qed.
