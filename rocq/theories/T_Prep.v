(** C46: the preprocessing scripts turn the input text into the files of exactly the collection it lists; so the answers are about the input. *)
From Coq Require Import Permutation String Sorted.
From Verif Require Import Base S_Order S_Vocab S_Parse M_Heap S_Heap M_Iter M_Intersect S_Intersect M_Containers S_Containers M_Auto M_Auto1 S_Collection S_Index M_Auto2 S_Index2 M_Blocked S_Blocked S_Build P_Build.
From Verif Require Import M_Text M_Input S_Text S_Files P_Files M_Bits M_Cvec M_Darray M_EfSeq M_Fc M_CompactEf M_Real P_Real P_Auto1 P_Auto23 P_ListContainers P_Blocked P_BlockFinal S_Json M_Web.
From Verif Require Import P_Heap M_Stored M_Save P_Save P_Stored P_Fit3 S_Save T_Auto1 T_Auto2 T_Auto4 T_Web T_Real T_Input T_Build T_End T_Save.
From Verif Require Import S_Python S_Prep M_Prep P_PrepText P_PrepEnd.
Local Open Scope nat_scope.

(** Every valid input, in any layout, for Python 2 and Python 3, is turned into the files of a well-formed collection: the words of the input (in UTF-8), the completions and
    their ids in the order of the input. *)
Theorem C46_preprocess : forall (py : python) es input, valid_input es -> is_input es input ->
  exists t c, preprocess input = Ok t /\ wf_collection c /\ describes es c /\ holds_collection c t.
Proof. intros py es input Hv Hi. destruct (preprocess_ok es input Hv Hi) as (t & c & E & W & D & H & _). exists t, c. auto. Qed.

(** Also the numbers that are only used to reserve memory are exact: the length of the longest completion, the number of trie nodes of each level. *)
Theorem C46_stats : forall (py : python) es input c, valid_input es -> is_input es input -> wf_collection c -> describes es c ->
  exists t, preprocess input = Ok t /\ numbers (stats_of es c) (t_stats t).
Proof.
  intros py es input c Hv Hi W D. destruct (preprocess_ok es input Hv Hi) as (t & c' & E & W' & D' & _ & H). assert (c' = c) as -> by exact (describes_unique es c' c W' W D' D).
  exists t. split; [exact E|exact H].
Qed.

(** There is only one such collection, and answers over it are answers over the input. *)
Theorem C46_collection : forall (py : python) es c, wf_collection c -> describes es c ->
  (forall c', wf_collection c' -> describes es c' -> c' = c) /\
  (forall r out, answer_to c r out <-> completes es r out).
Proof.
  intros py es c W D. split; [intros c' W' D'; exact (describes_unique es c' c W' W D' D)|]. exact (answer_completes es c D).
Qed.

(** From the input text to the answers: preprocess.sh, the build tool, the index file, another process that loads it and answers requests. *)
Theorem C37_preprocessed_partial : forall (py : python) es input c, valid_input es -> is_input es input -> wf_collection c -> describes es c ->
  sizes_ok2 c -> small_dict c -> some_doc_positive c -> some_term_not_in_doc0 c ->
  exists t, preprocess input = Ok t /\
  forall tail heap sort fuel junk fresh rs, (tail < 2 ^ 64)%N -> (forall A, std_heap (heap A)) -> sorts_by_size ce_ops sort ->
  length (t_mapped t) < fuel -> query_fuel c < fuel ->
  (Forall (request_ok c) rs -> exists file, build_tool ac1_build_d (visit_index1 fresh) true fuel junk t = Ok file /\
     forall old, exists outs, serve1 tail heap sort fresh fuel old file rs = Ok outs /\ Forall2 (completes es) rs outs) /\
  (Forall (request_ok2 c) rs -> exists file, build_tool ac2_build_d visit_index2 false fuel junk t = Ok file /\
     forall old, exists outs, serve2 tail heap sort fuel old file rs = Ok outs /\ Forall2 (completes es) rs outs) /\
  (Forall (request_ok2 c) rs -> exists file, build_tool ac3_build_d visit_index3 false fuel junk t = Ok file /\
     forall old, exists outs, serve3 tail heap sort fuel old file rs = Ok outs /\ Forall2 (completes es) rs outs).
Proof.
  intros py es input c Hv Hi W D Hs Hd Hp H0. destruct (preprocess_ok es input Hv Hi) as (t & c' & E & W' & D' & H & _). assert (c' = c) as -> by exact (describes_unique es c' c W' W D' D).
  exists t. split; [exact E|]. intros tail heap sort fuel junk fresh rs H1 H2 H3 Hf Hq.
  assert (Hall : forall outs, Forall2 (answer_to c) rs outs -> Forall2 (completes es) rs outs).
  { intros outs HF. induction HF as [|r out rs' outs' Ha HF IH]; [constructor|]. constructor; [now apply (answer_completes es c D)|exact IH]. }
  split; [|split]; intros Hr.
  - destruct (C45_program1_partial tail heap sort c t fuel junk fresh rs H1 H2 H3 W (proj1 Hs) Hd Hp H0 H Hf Hq Hr) as (file & Ef & Ho). exists file. split; [exact Ef|].
    intros old. destruct (Ho old) as (outs & Es & Ha). exists outs. split; [exact Es|exact (Hall outs Ha)].
  - destruct (C45_program2_partial tail heap sort c t fuel junk rs H1 H2 H3 W Hs Hd Hp H0 H Hf Hq Hr) as (file & Ef & Ho). exists file. split; [exact Ef|].
    intros old. destruct (Ho old) as (outs & Es & Ha). exists outs. split; [exact Es|exact (Hall outs Ha)].
  - destruct (C45_program3_partial tail heap sort c t fuel junk rs H1 H2 H3 W Hs Hd Hp H Hf Hq Hr) as (file & Ef & Ho). exists file. split; [exact Ef|].
    intros old. destruct (Ho old) as (outs & Es & Ha). exists outs. split; [exact Es|exact (Hall outs Ha)].
Qed.

(** The web server on an index made from the input text. *)
Theorem C39_preprocessed_partial : forall (py : python) es input c, valid_input es -> is_input es input -> wf_collection c -> describes es c ->
  sizes_ok c -> small_dict c -> some_doc_positive c -> some_term_not_in_doc0 c ->
  exists t, preprocess input = Ok t /\
  forall tail heap sort fuel junk fresh, (tail < 2 ^ 64)%N -> (forall A, std_heap (heap A)) -> sorts_by_size ce_ops sort ->
  length (t_mapped t) < fuel -> query_fuel c < fuel ->
  exists file, build_tool ac1_build_d (visit_index1 fresh) true fuel junk t = Ok file /\
    forall old, exists d, load_file (visit_index1 fresh) old file = Ok d /\
    forall k q kvar ts last s,
    (kvar = [] /\ k = 10 \/ decimal kvar k) -> 1 <= k <= MAX_K ->
    query_split q ts last -> first_term_ok c last -> state1_ok s ->
    exists out, best es (matches_all es ts last) k out /\
      (fits_pool out -> out <> [] -> Forall (fun r => ~ In 37%N (snd r)) out ->
       exists data v s', topcomp (real_containers tail heap sort) (index1_of tail heap sort d) fuel q kvar s = Ok (data, s') /\
         is_json data v /\ suggestions (map snd out) v /\ state1_ok s').
Proof.
  intros py es input c Hv Hi W D Hs Hd Hp H0. destruct (preprocess_ok es input Hv Hi) as (t & c' & E & W' & D' & H & _). assert (c' = c) as -> by exact (describes_unique es c' c W' W D' D).
  exists t. split; [exact E|]. intros tail heap sort fuel junk fresh H1 H2 H3 Hf Hq.
  destruct (C39_topcomp_loaded_partial tail heap sort c t fuel junk fresh H1 H2 H3 W Hs Hd Hp H0 H Hf Hq) as (file & Ef & Ho). exists file. split; [exact Ef|].
  intros old. destruct (Ho old) as (d & Ed & Hr). exists d. split; [exact Ed|]. intros k q kvar ts last s Hk1 Hk2 Hsp Hft Hst. destruct (Hr k q kvar ts last s Hk1 Hk2 Hsp Hft Hst) as (out & Ha & Hj).
  exists out. split; [|exact Hj]. apply (topk_best es c D) in Ha. eapply best_ext; [|exact Ha]. apply (conj_matches es c D).
Qed.

(** A blank line, also at the end, makes the scripts fail. *)
Theorem C46_blank_line : forall (py : python) rows input, table rows input -> In [] rows -> preprocess input = Exn.
Proof.
  intros py rows input Ht Hi. unfold preprocess, map_dataset. cbn zeta. rewrite map_lines_blank; [reflexivity|]. now rewrite (table_columns _ _ Ht).
Qed.

Definition all_prep := (C46_preprocess, C46_stats, C46_collection, C37_preprocessed_partial, C39_preprocessed_partial, C46_blank_line).
Print Assumptions all_prep.

(** An input with irregular spacing, both kinds of line ends, a word outside ASCII, and no end of the last line. *)
Definition es_ex : entries :=
  [(3, [bytes "a"; bytes "b"]); (0, [bytes "a"; bytes "bc"]); (7, [bytes "b"]); (1, [bytes "b"; bytes "de"]); (2, [bytes "bc"; bytes "a"; bytes "de"]); (5, [[233%N]])].
Definition input_ex : list N :=
  (bytes "3 a b" ++ [10%N] ++ bytes "00" ++ [9%N] ++ bytes "a  bc " ++ [13%N; 10%N] ++ bytes "  7 b" ++ [10%N] ++ bytes "1 b" ++ [160%N] ++ bytes "de" ++ [10%N] ++ bytes "2 bc a de" ++ [10%N] ++ bytes "5 " ++ [233%N])%list.
Definition numerals_ex : list (list N) := map bytes ["3"; "00"; "7"; "1"; "2"; "5"]%string.

(** Decision procedures. *)
Section Python.
Context {py : python}.
Definition letterb (c : N) : bool := ((32 <? c) && (c <? 55296) && (c <? characters) && negb (py_space c))%N.
Lemma letterb_ok c : letterb c = true -> letter c.
Proof. unfold letterb, letter. intros H. rewrite <- py_space_white. destruct (py_space c); pose proof characters_le; lia. Qed.
Lemma is_wordb_ok w : w <> [] -> forallb letterb w = true -> is_word w.
Proof. intros H0 H. split; [exact H0|]. apply Forall_forall. intros c Hc. rewrite forallb_forall in H. apply letterb_ok. now apply H. Qed.
Fixpoint gapb (l : list N) : list N * list N :=
  match l with
  | c :: l' => if (py_space c && negb (c =? 10) && negb (c =? 13))%N%bool then let '(g, r) := gapb l' in (c :: g, r) else ([], l)
  | [] => ([], [])
  end.
Fixpoint wordb (l : list N) : list N * list N :=
  match l with
  | c :: l' => if letterb c then let '(g, r) := wordb l' in (c :: g, r) else ([], l)
  | [] => ([], [])
  end.
Lemma gapb_ok l : let '(g, r) := gapb l in l = (g ++ r)%list /\ Forall blank g.
Proof.
  induction l as [|c l IH]; [cbn; split; [reflexivity|constructor]|]. cbn [gapb]. destruct (py_space c && negb (c =? 10)%N && negb (c =? 13)%N)%bool eqn:E; [|split; [reflexivity|constructor]].
  destruct (gapb l) as (g, r). destruct IH as (-> & H). split; [reflexivity|]. constructor; [|exact H]. apply andb_prop in E as (E & E3). apply andb_prop in E as (E1 & E2). split; [now apply py_space_white|]. lia.
Qed.
Lemma wordb_ok l : let '(g, r) := wordb l in l = (g ++ r)%list /\ Forall letter g.
Proof.
  induction l as [|c l IH]; [cbn; split; [reflexivity|constructor]|]. cbn [wordb]. destruct (letterb c) eqn:E; [|split; [reflexivity|constructor]].
  destruct (wordb l) as (g, r). destruct IH as (-> & H). split; [reflexivity|]. constructor; [now apply letterb_ok|exact H].
Qed.
Fixpoint rowb (ws : list (list N)) (l : list N) : bool :=
  let '(g, r) := gapb l in
  match ws with
  | [] => match r with [] => true | _ => false end
  | w :: ws' =>
      let '(w', r) := wordb r in
      (if list_eq_dec N.eq_dec w w' then true else false) && negb (match w with [] => true | _ => false end) &&
      match r with [] => true | c :: _ => py_space c && negb (c =? 10)%N && negb (c =? 13)%N end && rowb ws' r
  end.
Lemma rowb_ok ws : forall l, rowb ws l = true -> row ws l.
Proof.
  induction ws as [|w ws IH]; intros l H; cbn [rowb] in H; pose proof (gapb_ok l) as Hg; destruct (gapb l) as (g, r); destruct Hg as (-> & Hg).
  - destruct r; [|discriminate]. rewrite app_nil_r. now constructor.
  - pose proof (wordb_ok r) as Hw. destruct (wordb r) as (w', r'). destruct Hw as (-> & Hw). apply andb_prop in H as (H & H4). apply andb_prop in H as (H & H3). apply andb_prop in H as (H1 & H2).
    destruct (list_eq_dec N.eq_dec w w') as [<-|]; [|discriminate]. apply (row_word g w ws r'); [exact Hg| | |now apply IH].
    + split; [now destruct w|exact Hw].
    + destruct r' as [|c r']; [now left|]. right. exists c, r'. split; [reflexivity|]. apply andb_prop in H3 as (H3 & H5). apply andb_prop in H3 as (H3 & H6). split; [now apply py_space_white|]. lia.
Qed.
End Python.

Section Example3.
Let here : python := py3.
Existing Instance here.
Example C46_input_ex : valid_input es_ex /\ is_input es_ex input_ex.
Proof.
  split.
  - constructor.
    + discriminate.
    + assert (H : forall e, In e es_ex -> (0 <? length (snd e)) && (length (snd e) <=? 63) && forallb (fun w => match w with [] => false | _ => forallb letterb w end) (snd e) && (length (encoded (concat (snd e))) <=? 128) = true) by (apply forallb_forall; vm_compute; reflexivity).
      apply Forall_forall. intros e He. specialize (H e He). apply andb_prop in H as (H & H4). apply andb_prop in H as (H & H3). apply andb_prop in H as (H1 & H2).
      split; [lia|]. split; [|lia]. apply Forall_forall. intros w Hw. rewrite forallb_forall in H3. specialize (H3 w Hw). destruct w; [discriminate|]. apply is_wordb_ok; [discriminate|exact H3].
    + assert (H : forallb (fun p => str_ltb (fst p) (snd p)) (combine (map (fun e => join (snd e)) es_ex) (tl (map (fun e => join (snd e)) es_ex))) = true) by (vm_compute; reflexivity).
      rewrite forallb_forall in H. repeat split; apply P_PrepDict.str_ltb_spec; vm_compute; reflexivity.
    + repeat constructor; cbn; lia.
    + repeat constructor.
    + vm_compute. reflexivity.
    + exists (flat_map snd es_ex). split; [vm_compute; reflexivity|]. intros w (e & He & Hw). apply in_flat_map. eauto.
  - exists numerals_ex. split.
    + apply numeralsb_ok. vm_compute. reflexivity.
    + change (map (fun p => fst p :: snd (snd p)) (combine numerals_ex es_ex)) with
        [[bytes "3"; bytes "a"; bytes "b"]; [bytes "00"; bytes "a"; bytes "bc"]; [bytes "7"; bytes "b"]; [bytes "1"; bytes "b"; bytes "de"]; [bytes "2"; bytes "bc"; bytes "a"; bytes "de"]; [bytes "5"; [233%N]]].
      apply (tab_line _ (bytes "3 a b") [10%N]); [apply rowb_ok; vm_compute; reflexivity|now left|].
      apply (tab_line _ (bytes "00" ++ [9%N] ++ bytes "a  bc ")%list [13%N; 10%N]); [apply rowb_ok; vm_compute; reflexivity|now right|].
      apply (tab_line _ (bytes "  7 b") [10%N]); [apply rowb_ok; vm_compute; reflexivity|now left|].
      apply (tab_line _ (bytes "1 b" ++ [160%N] ++ bytes "de")%list [10%N]); [apply rowb_ok; vm_compute; reflexivity|now left|].
      apply (tab_line _ (bytes "2 bc a de") [10%N]); [apply rowb_ok; vm_compute; reflexivity|now left|].
      apply (tab_last _ (bytes "5 " ++ [233%N])%list); [apply rowb_ok; vm_compute; reflexivity|discriminate].
Qed.

(** The whole way, with queries b and é (two bytes). *)
Example C46_nonvacuous :
  let rs := [conj10 [98]%N; {| rq_conj := false; rq_k := 2; rq_text := [98]%N |}; conj10 [195; 169]%N] in
  let fresh := {| ef_l := 0; ef_high := {| v_size := 0; v_words := [] |}; ef_d1 := {| d_n := 0; d_blocks := []; d_subs := []; d_over := [] |};
                  ef_low := {| v_size := 0; v_words := [] |}; ef_size := 0 |} in
  (do t <- preprocess input_ex; Ok (t_dict t, t_stats t)) =
    Ok (T_Input.lines ["a"; "b"; "bc"; "de"]%string ++ [195; 169; 10]%N, T_Input.lines ["5"; "5"; "6"; "8"; "4"; "4"; "6"; "4"; "1"]%string)%list /\
  (do t <- preprocess input_ex;
   do file <- build_tool ac1_build_d (visit_index1 fresh) true 200 7%N t;
   do old <- ac1_build_d (files_of coll_ex);
   serve1 0 sorting_heap sort_ce fresh 200 old file rs) =
  Ok [[(0, bytes "a bc"); (1, bytes "b de"); (2, bytes "bc a de"); (3, bytes "a b"); (7, bytes "b")]; [(1, bytes "b de"); (2, bytes "bc a de")]; [(5, [195; 169]%N)]] /\
  (exists rows, table rows (bytes "1 a" ++ [10; 10]%N)%list /\ In [] rows).
Proof.
  split; [vm_compute; reflexivity|]. split; [vm_compute; reflexivity|]. exists [[bytes "1"; bytes "a"]; []]. split; [|right; now left].
  apply (tab_line _ (bytes "1 a") [10%N] _ [10%N]); [apply rowb_ok; vm_compute; reflexivity|now left|]. apply (tab_line [] [] [10%N] [] []); [constructor; constructor|now left|constructor].
Qed.

Example C46_stats_nonvacuous : exists c, wf_collection c /\ describes es_ex c /\ stats_of es_ex c = [5; 5; 6; 8; 4; 4; 6; 4; 1]%N.
Proof.
  destruct C46_input_ex as (Hv & ids & Hids & Ht). exists (P_Prep.coll es_ex ids). split; [apply (P_Prep.coll_wf es_ex ids input_ex Hv Hids)|]. split; [exact (P_Prep.coll_describes es_ex ids Hv Hids)|].
  assert (Hl : length ids = 6) by (clear -Hids; apply (Forall2_ind (fun l l2 => length l = length l2)) in Hids; [exact Hids|reflexivity|intros; cbn; lia]).
  do 6 (destruct ids as [|? ids]; [discriminate|]). destruct ids; [|discriminate]. vm_compute. reflexivity.
Qed.
End Example3.

(** Python 2: bytes; a carriage return is left at the end of the line and split off; 160 is no white space. *)
Section Example2.
Let here : python := py2.
Existing Instance here.
Example C46_python2_nonvacuous :
  let es := [(3, [bytes "a"; [195; 169]%N]); (0, [[160]%N])] in
  let input := (bytes "3 a " ++ [195; 169; 13; 10]%N ++ bytes "0 " ++ [160]%N)%list in
  valid_input es /\ is_input es input /\
  (do t <- preprocess input; Ok (t_dict t, t_mapped t, t_stats t)) =
    Ok (bytes "a" ++ [10; 160; 10; 195; 169; 10]%N, T_Input.lines ["3 1 3 0"; "0 2 0"]%string, T_Input.lines ["3"; "3"; "2"; "4"; "3"; "2"; "2"; "1"]%string)%list.
Proof.
  cbv zeta. split; [|split; [|vm_compute; reflexivity]].
  - constructor.
    + discriminate.
    + constructor; [|constructor; [|constructor]]; (split; [cbn; lia|]); (split; [|vm_compute; lia]);
        repeat (apply Forall_cons || apply Forall_nil); (apply is_wordb_ok; [discriminate|vm_compute; reflexivity]).
    + repeat split; apply P_PrepDict.str_ltb_spec; vm_compute; reflexivity.
    + repeat constructor; cbn; lia.
    + repeat constructor.
    + vm_compute. reflexivity.
    + exists [bytes "a"; [195; 169]%N; [160]%N]. split; [vm_compute; reflexivity|]. intros w (e & He & Hw). cbn in He. destruct He as [<-|[<-|[]]]; cbn in Hw |- *; tauto.
  - exists [bytes "3"; bytes "0"]. split; [apply numeralsb_ok; vm_compute; reflexivity|].
    apply (tab_line _ (bytes "3 a " ++ [195; 169]%N)%list [13%N; 10%N]); [apply rowb_ok; vm_compute; reflexivity|now right|].
    apply (tab_last _ (bytes "0 " ++ [160]%N)%list); [apply rowb_ok; vm_compute; reflexivity|discriminate].
Qed.
End Example2.
