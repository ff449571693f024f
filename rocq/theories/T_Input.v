(** C44: the input files are read back exactly. *)
From Coq Require Import String.
From Verif Require Import Base S_Order S_Vocab S_Completions S_Trie M_Containers M_Auto M_Auto1 M_Text M_Input S_Text S_Collection S_Files S_Json.
From Verif Require Import P_Input P_Files P_Auto1 P_ListContainers T_Auto1.
Local Open Scope nat_scope.

(** .mapped, for every list of records and every layout of the numbers (with or without a newline at the end): reading to the end of the file, and reading
    as many records as there are, both yield exactly the records; then the stream has failed, and moving on changes nothing. *)
Theorem C44_mapped : forall recs text junk fuel, Forall valid_record recs -> numbers (concat (map record_numbers recs)) text -> length text < fuel ->
  exists e e', read_mapped fuel junk text = Ok (map (fun r => (fst r, terminated (snd r))) recs, e) /\
    read_mapped_n fuel (length recs) junk text = Ok (map (fun r => (fst r, terminated (snd r))) recs, e') /\
    (forall x, x = e \/ x = e' -> st_fail (ci_st x) = true /\ ci_completion x = [] /\
      exists y, ci_incr fuel x = Ok y /\ st_fail (ci_st y) = true /\ ci_completion y = [] /\ ci_doc y = ci_doc x).
Proof.
  intros recs text junk fuel Hr Hn Hf. destruct (read_mapped_ok recs fuel junk text Hr Hn Hf) as (e & E & He).
  destruct (read_mapped_n_ok recs fuel junk text Hr Hn Hf) as (e' & E' & He'). exists e, e'. split; [exact E|]. split; [exact E'|].
  intros x Hx. assert (Hs : showing x []) by (destruct Hx; subst; assumption). split; [exact (proj1 (proj1 Hs))|]. split; [exact (proj2 Hs)|].
  destruct (ci_incr_end fuel x) as (y & Ey & Hy & Hd); [lia|exact Hs|]. exists y. split; [exact Ey|]. split; [exact (proj1 (proj1 Hy))|]. split; [exact (proj2 Hy)|exact Hd].
Qed.
Print Assumptions C44_mapped.

(** All files of a collection, in any layout: the builders work on exactly the collection. *)
Theorem C44_files : forall c t trie fuel junk, wf_collection c -> holds_collection c t -> length (t_mapped t) < fuel ->
  read_files trie fuel junk t = Ok (files_of c).
Proof. intros c t trie fuel junk Hwf. exact (read_files_ok c Hwf trie fuel junk t). Qed.
Print Assumptions C44_files.

(** A token id that does not fit into 32 bits is outside the theorem: the reader never ends (it appends to the completion forever). *)
Lemma read_ids_forever fuel : forall st x acc, st_fail st = true -> st_eof st = false -> x <> 0%N -> read_ids fuel st x acc = Fuel.
Proof.
  induction fuel as [|fuel IH]; intros st x acc Hf He Hx; [reflexivity|]. cbn [read_ids]. unfold in_u32, good. rewrite Hf, He. destruct (N.eqb_spec x 0); [congruence|].
  cbn [negb andb]. apply IH; [reflexivity|reflexivity|exact Hx].
Qed.
Theorem C44_large_id_hangs : forall fuel junk, read_mapped fuel junk (bytes "1 4294967296 0") = Fuel.
Proof.
  intros [|[|fuel]] junk; [reflexivity..|]. set (f := S (S fuel)). unfold read_mapped, ci_open. cbn [good open_file st_eof st_fail negb andb]. unfold read_next.
  assert (E : in_u32 (open_file (bytes "1 4294967296 0")) junk = ({| st_rest := bytes " 4294967296 0"; st_eof := false; st_fail := false |}, 1%N)) by (vm_compute; reflexivity).
  change {| st_rest := bytes "1 4294967296 0"; st_eof := false; st_fail := false |} with (open_file (bytes "1 4294967296 0")). rewrite E.
  assert (E2 : in_u32 {| st_rest := bytes " 4294967296 0"; st_eof := false; st_fail := false |} 4294967295%N = (failed (bytes " 0") false, 4294967295%N)) by (vm_compute; reflexivity).
  assert (E3 : read_ids f {| st_rest := bytes " 4294967296 0"; st_eof := false; st_fail := false |} 4294967295 [] = Fuel).
  { unfold f. change (read_ids (S (S fuel)) ?st ?x ?acc) with (let '(st', x') := in_u32 st x in read_ids (S fuel) st' x' (acc ++ [x'])). rewrite E2.
    now apply read_ids_forever. }
  rewrite E3. reflexivity.
Qed.
Print Assumptions C44_large_id_hangs.

(** The files the scripts write for [coll_ex] (test_data/map_dataset.py, build_stats.py, build_inverted_and_forward.py, extract_dict.py). *)
Definition nl : list N := [10%N].
Definition lines (l : list string) : list N := concat (map (fun s => bytes s ++ nl)%list l).
Definition texts_ex : texts := {|
  t_stats := lines ["4"; "5"; "6"; "8"; "4"; "4"; "6"; "4"; "1"]%string;
  t_dict := lines ["a"; "b"; "bc"; "de"]%string;
  t_mapped := lines ["3 1 2 0"; "0 1 3 0"; "7 2 0"; "1 2 4 0"; "2 3 1 4 0"; "5 4 0"]%string;
  t_inverted := lines ["3 0 2 3"; "3 1 3 7"; "2 0 2"; "3 1 2 5"]%string;
  t_forward := lines ["2 1 3"; "2 2 4"; "3 3 1 4"; "2 1 2"; "0 "; "1 4"; "0 "; "1 2"]%string |}.

(** A decision procedure for layouts. *)
Fixpoint layoutb (ws : list (list N)) (text : list N) (fuel : nat) {struct fuel} : bool :=
  match fuel with
  | 0 => false
  | S fuel =>
      match skip_spaces text, ws with
      | [], [] => true
      | (_ :: _) as s, w :: ws' => let '(w', r) := span_word s in if list_eq_dec N.eq_dec w w' then layoutb ws' r fuel else false
      | _, _ => false
      end
  end.
Lemma skip_spaces_gap text : exists gap, text = (gap ++ skip_spaces text)%list /\ Forall white gap.
Proof.
  induction text as [|b text (gap & E & H)]; [exists []; split; [reflexivity|constructor]|]. cbn [skip_spaces]. destruct (is_space b) eqn:Eb.
  - exists (b :: gap). split; [cbn; congruence|]. constructor; [now apply is_space_white|exact H].
  - exists []. split; [reflexivity|constructor].
Qed.
Lemma skip_spaces_head text b s : skip_spaces text = b :: s -> ~ white b.
Proof.
  induction text as [|x text IH]; [discriminate|]. cbn [skip_spaces]. destruct (is_space x) eqn:E; [exact IH|]. intros H. injection H as -> ->. intros Hw.
  apply is_space_white in Hw. congruence.
Qed.
Lemma span_word_spec s : let '(w, r) := span_word s in s = (w ++ r)%list /\ Forall (fun b => ~ white b) w /\ starts_white r.
Proof.
  induction s as [|b s IH]; [cbn; repeat split; [constructor|now left]|]. cbn [span_word]. destruct (is_space b) eqn:E.
  - split; [reflexivity|]. split; [constructor|]. right. exists b, s. split; [reflexivity|now apply is_space_white].
  - destruct (span_word s) as [w r]. destruct IH as (-> & H & Hr). split; [reflexivity|]. split; [|exact Hr]. constructor; [|exact H].
    intros Hw. apply is_space_white in Hw. congruence.
Qed.
Lemma layoutb_ok fuel : forall ws text, layoutb ws text fuel = true -> layout ws text.
Proof.
  induction fuel as [|fuel IH]; intros ws text H; [discriminate|]. cbn [layoutb] in H. destruct (skip_spaces_gap text) as (gap & E & Hg).
  destruct (skip_spaces text) as [|b s] eqn:Es.
  - destruct ws; [|discriminate]. rewrite app_nil_r in E. subst. now constructor.
  - destruct ws as [|w ws]; [discriminate|]. pose proof (span_word_spec (b :: s)) as Hsp. destruct (span_word (b :: s)) as [w' r] eqn:Ew. destruct (list_eq_dec N.eq_dec w w') as [->|]; [|discriminate].
    destruct Hsp as (E2 & H2 & H3). rewrite E, E2. constructor; [exact Hg| |exact H3|now apply IH]. split; [|exact H2].
    intros ->. cbn [app] in E2. subst r. destruct H3 as [H3|(b' & t & H3 & Hw)]; [discriminate|]. injection H3 as -> ->. exact (skip_spaces_head _ _ _ Es Hw).
Qed.

Fixpoint numeralsb (ws : list (list N)) (vs : list N) : bool :=
  match ws, vs with
  | [], [] => true
  | w :: ws', v :: vs' => negb (is_nil w) && forallb isdigit w && (fold_left (fun v b => 10 * v + (b - 48)) w 0 =? v)%N && numeralsb ws' vs'
  | _, _ => false
  end.
Lemma numeralsb_ok ws : forall vs, numeralsb ws vs = true -> Forall2 numeral ws vs.
Proof.
  induction ws as [|w ws IH]; intros [|v vs] H; try discriminate H; constructor; cbn [numeralsb] in H; apply andb_prop in H as (H & H4); [|now apply IH].
  apply andb_prop in H as (H & H3). apply andb_prop in H as (H1 & H2). split; [now destruct w|]. split; [|now apply N.eqb_eq].
  apply Forall_forall. intros b Hb. rewrite forallb_forall in H2. specialize (H2 b Hb). unfold isdigit in H2. lia.
Qed.
Ltac one_numbers strs := exists (map bytes strs); split; [apply numeralsb_ok; vm_compute; reflexivity|apply (layoutb_ok 200); vm_compute; reflexivity].
Example C44_nonvacuous :
  wf_collection coll_ex /\ holds_collection coll_ex texts_ex /\
  read_files true 1000 7 texts_ex = Ok (files_of coll_ex) /\
  Forall valid_record [(3%N, [1%N; 2%N]); (0%N, [])] /\
  numbers (concat (map record_numbers [(3%N, [1%N; 2%N]); (0%N, [])])) (bytes "3 1 2 0 0 0") /\
  exists e, read_mapped 20 7 (bytes "3 1 2 0 0 0") = Ok ([(3, [1; 2; 0]); (0, [0])]%N, e).
Proof.
  split; [apply wf_collectionb_ok; reflexivity|]. split; [constructor|].
  - exists 5%N, [4; 6; 4; 1]%N. split; [lia|]. split; [reflexivity|]. split; [repeat constructor|]. one_numbers ["4"; "5"; "6"; "8"; "4"; "4"; "6"; "4"; "1"]%string.
  - apply (layoutb_ok 200). vm_compute. reflexivity.
  - one_numbers ["3"; "1"; "2"; "0"; "0"; "1"; "3"; "0"; "7"; "2"; "0"; "1"; "2"; "4"; "0"; "2"; "3"; "1"; "4"; "0"; "5"; "4"; "0"]%string.
  - one_numbers ["3"; "0"; "2"; "3"; "3"; "1"; "3"; "7"; "2"; "0"; "2"; "3"; "1"; "2"; "5"]%string.
  - one_numbers ["2"; "1"; "3"; "2"; "2"; "4"; "3"; "3"; "1"; "4"; "2"; "1"; "2"; "0"; "1"; "4"; "0"; "1"; "2"]%string.
  - split; [vm_compute; reflexivity|]. split; [repeat constructor|]. split; [one_numbers ["3"; "1"; "2"; "0"; "0"; "0"]%string|]. eexists. vm_compute. reflexivity.
Qed.
