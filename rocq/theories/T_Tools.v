(** C48, C49, C50: map_queries, output_ds2i_format, load_queries. *)
From Coq Require Import String Sorted.
From Verif Require Import Base S_Order S_Parse S_Text S_Vocab S_Completions S_Trie S_Collection S_Files S_Json S_Tools.
From Verif Require Import M_Parse M_Fc M_Auto M_Input M_Save M_Tools P_Tools T_Auto1 T_Input.
Local Open Scope nat_scope.

(** ** C48 *)
(** For every well-formed collection, every layout of its files and every text of queries, the first [n] lines of which are not empty: each of them gives
    one line with the numbers of its tokens. *)
Theorem C48_map_queries_partial : forall c t n ls queries, wf_collection c -> holds_collection c t -> has_lines ls queries ->
  Forall (fun q => q <> []) (firstn n ls) ->
  exists rows, map_queries n t queries = Ok (each_ended rows) /\ Forall2 (mapped_line (stored (terms c))) (firstn n ls) rows.
Proof. intros c t n ls queries Hwf Ht. exact (map_queries_ok c Hwf t Ht n ls queries). Qed.

(** The number of a token is determined, unless there are as many terms as would make a position equal to 2^32 - 2. *)
Theorem C48_number_unique : forall c t x y, wf_collection c -> number (stored (terms c)) t x -> number (stored (terms c)) t y -> x = y.
Proof.
  intros c t x y Hwf [Hx|(Hx & ->)] [Hy|(Hy & ->)]; [|exfalso; apply Hy; eapply nth_error_In; eauto|exfalso; apply Hx; eapply nth_error_In; eauto|reflexivity].
  apply N2Nat.inj. pose proof (P_Collection.terms_nodup c Hwf) as Hd. apply (proj1 (NoDup_nth_error (terms c)) Hd).
  - apply nth_error_Some. intros E. apply P_Kept.stored_nth_error in Hx. congruence.
  - apply P_Kept.stored_nth_error in Hx. apply P_Kept.stored_nth_error in Hy. congruence.
Qed.

(** An empty line: undefined behaviour (F36). *)
Theorem C48_empty_line_refuted : forall c t n queries, wf_collection c -> holds_collection c t -> map_queries (S n) t (10%N :: queries) = UB.
Proof.
  intros c t n queries Hwf Ht. unfold map_queries. destruct (load_coll c Hwf t Ht) as (p & E & Ep & _). rewrite E. cbn [bind]. rewrite Ep, Nat2N.id.
  destruct (P_Input.read_words_ok (terms c) (open_file (t_dict t)) [] (P_Input.before_open _ _ (hc_dict _ _ Ht))) as (st & Er & _). rewrite Er. cbn [snd].
  destruct (P_Kept.fc_locate_any (terms c) (wf_terms c Hwf)) as (d & Ed & _). rewrite Ed. reflexivity.
Qed.

Fixpoint one_lineb (l : list N) : bool := match l with [] => true | b :: l' => negb (b =? 10)%N && one_lineb l' end.
Lemma one_lineb_ok l : one_lineb l = true -> one_line l.
Proof.
  induction l as [|b l IH]; [constructor|]. cbn [one_lineb]. intros H. apply Bool.andb_true_iff in H as (H1 & H2). constructor; [|now apply IH].
  intros ->. discriminate.
Qed.
Lemma lines_has ls : forallb one_lineb (map bytes ls) = true -> has_lines (map bytes ls) (T_Input.lines ls).
Proof.
  induction ls as [|l ls IH]; [constructor|]. intros H. cbn [map forallb] in H. apply Bool.andb_true_iff in H as (H1 & H2).
  unfold T_Input.lines. cbn [map concat]. unfold nl at 1. rewrite <- app_assoc. cbn [app]. apply lines_line; [now apply one_lineb_ok|now apply IH].
Qed.
(** The vocabulary a, b, bc, de; the third line has an unknown token and the fourth a space at the end. The fifth is not read. *)
Definition queries_ex : list string := ["bc a"; "de"; "b xyz  a"; "bc "; ""]%string.
Example C48_nonvacuous : has_lines (map bytes queries_ex) (T_Input.lines queries_ex) /\ Forall (fun q => q <> []) (firstn 4 (map bytes queries_ex)) /\
  map_queries 4 texts_ex (T_Input.lines queries_ex) = Ok (bytes "2	0" ++ nl ++ bytes "3" ++ nl ++ bytes "1	4294967294	0" ++ nl ++ bytes "2	4294967294" ++ nl)%list.
Proof.
  split; [apply lines_has; reflexivity|]. split; [repeat (apply Forall_cons; [discriminate|]); constructor|]. vm_compute. reflexivity.
Qed.

(** ** C49 *)
(** .docs: 1, the bound on the doc ids, then for every term the number of completions that contain it and their doc ids in increasing order; .freqs has a 1 for
    every doc id. *)
Theorem C49_ds2i : forall c t junk, wf_collection c -> holds_collection c t ->
  exists docs freqs lists, ds2i t junk = Ok (docs, freqs) /\
    integers (1%N :: N.of_nat (universe c) :: concat (map counted (map (map N.of_nat) lists))) docs /\
    integers (concat (map (fun l => counted (repeat 1%N (length l))) lists)) freqs /\
    length lists = length (terms c) /\
    forall j w, nth_error (terms c) j = Some w ->
      exists l, nth_error lists j = Some l /\ StronglySorted lt l /\ forall d, In d l <-> exists ids, is_doc c d ids /\ In w (words_of c ids).
Proof.
  intros c t junk Hwf Ht. destruct (ds2i_ok c t junk Hwf Ht) as (docs & freqs & E & Hd & Hf). cbv zeta in Hd, Hf.
  exists docs, freqs, (map (posting_list c) (seq 1 (length (terms c)))). split; [exact E|]. split; [|split; [|split]].
  - rewrite (map_map (posting_list c)). exact Hd.
  - rewrite map_map in Hf |- *. erewrite map_ext; [exact Hf|]. intros x. cbv beta. f_equal. rewrite map_map.
    generalize (posting_list c x). clear. induction l as [|a l IH]; [reflexivity|]. cbn. now rewrite IH.
  - now rewrite map_length, seq_length.
  - intros j w Hj. assert (Hlt : j < length (terms c)) by (apply nth_error_Some; congruence). exists (posting_list c (j + 1)). split; [|split].
    + apply map_nth_error. rewrite (nth_error_nth' _ 0) by now rewrite seq_length. rewrite seq_nth by exact Hlt. f_equal. lia.
    + apply P_Collection.posting_increasing.
    + intros d. rewrite (P_Collection.in_posting c Hwf).
      split; intros (ids & Hi & H); exists ids; (split; [exact Hi|]); now apply (P_Collection.in_words c Hwf ids w j (P_Collection.is_doc_in c d ids Hi) Hj).
Qed.

(** A file of integers can be read in one way only. *)
Theorem C49_integers_unique : forall xs ys file, integers xs file -> integers ys file -> xs = ys.
Proof.
  intros xs ys file H. revert ys. induction H as [|a b c d xs file Hb H IH]; intros ys H'; inversion H'; subst; [reflexivity|]. f_equal. now apply IH.
Qed.

(** C48 and C49 together: the number of a term in the dictionary is the number of the list with the doc ids of the completions that contain it. *)
Theorem C49_lists_of_tokens : forall c t junk, wf_collection c -> holds_collection c t ->
  exists docs freqs lists, ds2i t junk = Ok (docs, freqs) /\
    integers (1%N :: N.of_nat (universe c) :: concat (map counted (map (map N.of_nat) lists))) docs /\
    forall w x, In w (stored (terms c)) -> number (stored (terms c)) w x ->
      exists l, nth_error lists (N.to_nat x) = Some l /\ forall d, In d l <-> exists ids, is_doc c d ids /\ In w (words_of c ids).
Proof.
  intros c t junk Hwf Ht. destruct (C49_ds2i c t junk Hwf Ht) as (docs & freqs & lists & E & Hd & _ & _ & H). exists docs, freqs, lists. split; [exact E|]. split; [exact Hd|].
  intros w x Hw [Hx|(Hx & _)]; [|contradiction]. destruct (H (N.to_nat x) w (P_Kept.stored_nth_error _ _ _ Hx)) as (l & Hl & _ & Hi). eauto.
Qed.

Definition u32s_ex (l : list N) : list N := flat_map (fun x => [x; 0; 0; 0]%N) l.
Example C49_nonvacuous : wf_collection coll_ex /\ holds_collection coll_ex texts_ex /\
  ds2i texts_ex 77 = Ok (u32s_ex [1; 8; 3; 0; 2; 3; 3; 1; 3; 7; 2; 0; 2; 3; 1; 2; 5]%N, u32s_ex [3; 1; 1; 1; 3; 1; 1; 1; 2; 1; 1; 3; 1; 1; 1]%N).
Proof. split; [exact (proj1 C44_nonvacuous)|]. split; [exact (proj1 (proj2 C44_nonvacuous))|]. vm_compute. reflexivity. Qed.

(** ** C50 *)
(** With the percentage m / 2^e in [0,1], for lines that are not empty and shorter than 2^24 - 2 bytes. *)
Theorem C50_load_queries_partial : forall m e max is ls, (m <= 2 ^ e)%N -> has_lines ls is ->
  Forall (fun q => q <> [] /\ (N.of_nat (length q) + 2 < 2 ^ 24)%N) (firstn max ls) ->
  exists outs, load_queries max m e is = Ok outs /\ Forall2 (shortened m e) (firstn max ls) outs.
Proof. exact load_queries_ok. Qed.

(** Exactly: one character more than the percentage, rounded up, of the last token and the space before it; two more if there is only one token. *)
Theorem C50_exact : forall m e body last ts cl, (m <= 2 ^ e)%N -> no_space last -> words body ts -> body ++ last <> [] ->
  (N.of_nat (length (body ++ last)) + 2 < 2 ^ 24)%N -> (N.of_nat (S (length last)) * m < 2 ^ 24)%N ->
  ceiling (N.of_nat (match body with [] => length last | _ => S (length last) end) * m) e cl ->
  trim m e (body ++ last) = body ++ firstn (N.to_nat cl + match body with [] => 2 | _ => 1 end) last.
Proof.
  intros m e body last ts cl Hm Hl Hw Hne Hlen Hs (C1 & C2). destruct (trim_ok m e body last ts Hm Hl Hw Hne Hlen) as (E & _). rewrite E. do 3 f_equal.
  set (n := match body with [] => length last | _ => S (length last) end) in *.
  assert (Hn : n <= S (length last)) by (unfold n; destruct body; lia). assert (Hc : (N.of_nat n < 2 ^ 24)%N) by (rewrite app_length in Hlen; change (2 ^ 24)%N with 16777216%N in *; unfold n; destruct body; cbn [length] in *; lia).
  destruct (ceil_bounds n m e Hc Hm) as (_ & B1 & B2). rewrite rnd24_small in B1, B2 by (change (2 ^ 24)%N with 16777216%N in *; nia).
  assert (Hp : (2 ^ e <> 0)%N) by now apply N.pow_nonzero. clearbody n. set (p := (2 ^ e)%N) in *. clearbody p. set (x := (N.of_nat n * m)%N) in *. clearbody x.
  assert ((ceil_of n m e < cl + 1)%N) by (apply (N.mul_lt_mono_pos_r p); [lia|nia]). assert ((cl < ceil_of n m e + 1)%N) by (apply (N.mul_lt_mono_pos_r p); [lia|nia]). lia.
Qed.

(** The complete tokens stay; whatever matches the query matches the shortened query. *)
Theorem C50_matches : forall m e c q short ts last ws, shortened m e q short -> query_split q ts last ->
  exists last', query_split short ts last' /\ is_prefix last' last /\ (last <> [] -> last' <> []) /\
    (prefix_match ts last ws -> prefix_match ts last' ws) /\ (conj_match c ts last ws -> conj_match c ts last' ws).
Proof.
  intros m e c q short ts last ws Hs Hq. destruct (shortened_split m e q short ts last Hs Hq) as (last' & H1 & H2 & H3). exists last'. split; [exact H1|]. split; [exact H2|].
  split; [exact H3|]. assert (Ht : forall w, is_prefix last w -> is_prefix last' w).
  { intros w (r & ->). destruct H2 as (r' & ->). exists (r' ++ r)%list. now rewrite app_assoc. }
  split.
  - intros (w & rest & E & Hw). exists w, rest. auto.
  - intros (Ha & w & Hin & Hw). split; [exact Ha|]. exists w. auto.
Qed.

(** With 100% the queries are not changed. *)
Theorem C50_all : forall e max is ls, has_lines ls is ->
  Forall (fun q => q <> [] /\ (N.of_nat (length q) + 2 < 2 ^ 24)%N) (firstn max ls) -> load_queries max (2 ^ e) e is = Ok (firstn max ls).
Proof.
  intros e max is ls Hl Hq. destruct (C50_load_queries_partial (2 ^ e) e max is ls ltac:(lia) Hl Hq) as (outs & E & H). rewrite E. f_equal. clear -H.
  induction H as [|q out qs outs (body & last & ts & j & -> & _ & _ & -> & _ & Hj & _) _ IH]; [reflexivity|]. rewrite IH. f_equal. f_equal. apply firstn_all2.
  assert (2 ^ e <> 0)%N by now apply N.pow_nonzero. apply N.mul_le_mono_pos_r in Hj; lia.
Qed.

(** The help text says which part of the last token is kept: with one half, all of "abcd" is kept; with 0, two characters (F37). *)
Theorem C50_percentage_refuted : trim 1 1 (bytes "abcd") = bytes "abcd" /\ trim 0 0 (bytes "abcd") = bytes "ab" /\ trim 0 0 (bytes "x abcd") = bytes "x a".
Proof. repeat split. Qed.
Theorem C50_empty_line_refuted : forall max m e is, load_queries (S max) m e (10%N :: is) = UB.
Proof. reflexivity. Qed.

(** 50% of the last token, rounded up, and one character more. *)
Example C50_nonvacuous : load_queries 3 1 1 (T_Input.lines ["new york cit"; "autocomplete"; "a "; "b"]%string) = Ok [bytes "new york cit"; bytes "autocomp"; bytes "a "] /\
  load_queries 1 1 2 (T_Input.lines ["new yorkshire"]%string) = Ok [bytes "new york"] /\
  has_lines (map bytes ["new york cit"; "autocomplete"; "a "; "b"]%string) (T_Input.lines ["new york cit"; "autocomplete"; "a "; "b"]%string).
Proof. split; [vm_compute; reflexivity|]. split; [vm_compute; reflexivity|]. apply lines_has. reflexivity. Qed.

Definition all_tools := (C48_map_queries_partial, C48_number_unique, C48_empty_line_refuted, C49_ds2i, C49_integers_unique, C49_lists_of_tokens,
  C50_load_queries_partial, C50_exact, C50_matches, C50_all, C50_percentage_refuted, C50_empty_line_refuted).
Print Assumptions all_tools.
