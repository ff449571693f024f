(** parse with the front-coded dictionary. *)
From Verif Require Import Base S_Order S_Parse S_Vocab P_Order M_Parse M_Fc P_Parse P_Fc P_Kept.

(** 1-based position of a term. *)
Fixpoint pos_of (terms : list (list N)) (t : list N) : option nat :=
  match terms with
  | [] => None
  | x :: r => if list_eq_dec N.eq_dec x t then Some 1 else option_map S (pos_of r t)
  end.

Lemma pos_of_some terms t i : pos_of terms t = Some i -> 1 <= i /\ nth_error terms (i - 1) = Some t.
Proof.
  revert i; induction terms as [|x r IH]; intros i; cbn; [discriminate|].
  destruct (list_eq_dec N.eq_dec x t) as [->|Hne].
  - intros H; injection H as <-. auto.
  - destruct (pos_of r t) as [j|]; cbn; [|discriminate]. intros H; injection H as <-.
    destruct (IH j eq_refl) as [Hj Hn]. split; [lia|]. destruct j as [|j]; [lia|].
    cbn in *. now rewrite Nat.sub_0_r in Hn.
Qed.
Lemma pos_of_none terms t : pos_of terms t = None <-> ~ In t terms.
Proof.
  induction terms as [|x r IH]; cbn; [tauto|].
  destruct (list_eq_dec N.eq_dec x t) as [->|Hne].
  - split; [discriminate|intros H; destruct H; now left].
  - destruct (pos_of r t) as [j|]; cbn.
    + split; [discriminate|]. intros H. exfalso. assert (~ In t r) by tauto. apply IH in H0. discriminate.
    + split; [|auto]. intros _ [H|H]; [congruence|]. now apply IH.
Qed.

Lemma query_split_exists_unique q :
  exists ts last, query_split q ts last /\
    forall ts' last', query_split q ts' last' -> ts' = ts /\ last' = last.
Proof.
  destruct (query_split_ex q) as (ts & last & H). exists ts, last. split; [assumption|].
  intros ts' last' H'. eapply query_split_det; eassumption.
Qed.

Lemma known_ids_positions terms ts : positions terms ts (known_ids (pos_of terms) ts).
Proof.
  induction ts as [|t ts IH]; cbn; [constructor|].
  destruct (pos_of terms t) as [i|] eqn:E.
  - destruct (pos_of_some _ _ _ E) as [Hi Hn]. replace i with (i - 1 + 1) by lia. now constructor.
  - apply pos_unknown; [now apply pos_of_none|assumption].
Qed.

Lemma all_known_In terms ts : all_known (pos_of terms) ts <-> Forall (fun t => In t terms) ts.
Proof.
  unfold all_known. split; intros H; eapply Forall_impl; try exact H; intros t Ht; cbn in *.
  - destruct (in_dec (list_eq_dec N.eq_dec) t terms); auto. destruct Ht. now apply pos_of_none.
  - intros E. apply pos_of_none in E. auto.
Qed.

Lemma pos_of_iff terms t r : lex_sorted terms ->
  (forall id, r = Some id <-> (1 <= id /\ nth_error terms (id - 1) = Some t)) -> r = pos_of terms t.
Proof.
  intros W H. destruct (pos_of terms t) as [i|] eqn:Ep.
  - apply H. exact (pos_of_some _ _ _ Ep).
  - destruct r as [id|]; [|reflexivity]. exfalso. apply (proj1 (pos_of_none terms t) Ep).
    destruct (proj1 (H id) eq_refl) as [_ Hn]. eapply nth_error_In; eauto.
Qed.

(** Parsing with the dictionary of any vocabulary: the tokens are looked up among the stored terms. *)
Lemma parse_fc_any terms : wf_vocab terms ->
  exists d, fc_build terms = Ok d /\
  forall must q dec ts last, length dec = 256 -> query_split q ts last ->
  exists dec', length dec' = 256 /\
   ((must = true /\ ~ Forall (fun t => In t (stored terms)) ts /\
     parse (list N) (fc_locate d) must q dec = Ok (None, dec')) \/
    ((must = true -> Forall (fun t => In t (stored terms)) ts) /\
     exists ids, parse (list N) (fc_locate d) must q dec = Ok (Some (ids, last), dec') /\
       positions (stored terms) ts ids)).
Proof.
  intros W. destruct (fc_locate_any terms W) as (d & E & L).
  exists d. split; [exact E|]. intros must q dec ts last Hdec Hs.
  destruct (parse_ok (list N) (fc_locate d) (pos_of (stored terms)) (fun dec => length dec = 256) (fun _ => True)) with
      (must := must) (q := q) (st := dec) (ts := ts) (last := last) as (dec' & Hd' & H); auto.
  { intros t st _ Hst. destruct (L t st Hst) as (r & dec' & El & Hl & Hr). exists dec'. split; [|exact Hl].
    rewrite El. do 2 f_equal. apply pos_of_iff; [|exact Hr]. exact (stored_sorted _ (proj1 W)). }
  exists dec'. split; [assumption|]. rewrite <- all_known_In.
  destruct H as [H|[H1 H2]]; [now left|right]. split; [assumption|].
  eexists. split; [exact H2|]. apply known_ids_positions.
Qed.

Lemma parse_fc terms :
  wf_vocab terms -> not_multiple_of_17 (length terms) ->
  exists d, fc_build terms = Ok d /\
  forall must q dec ts last, length dec = 256 -> query_split q ts last ->
  exists dec', length dec' = 256 /\
   ((must = true /\ ~ Forall (fun t => In t terms) ts /\
     parse (list N) (fc_locate d) must q dec = Ok (None, dec')) \/
    ((must = true -> Forall (fun t => In t terms) ts) /\
     exists ids, parse (list N) (fc_locate d) must q dec = Ok (Some (ids, last), dec') /\
       positions terms ts ids)).
Proof. intros W H17. pose proof (parse_fc_any terms W) as H. rewrite (stored_all terms H17) in H. exact H. Qed.

Lemma lt_sorted_nth l i j : lt_sorted l -> i < j < length l -> nth i l 0 < nth j l 0.
Proof.
  revert i j; induction l as [|a l IH]; intros i j Hs Hij; cbn [length] in Hij; [lia|].
  destruct j as [|j]; [lia|]. destruct i as [|i]; cbn [nth].
  - apply (lt_sorted_head _ _ _ Hs). apply nth_In. lia.
  - apply IH; [eapply lt_sorted_tl; eassumption|lia].
Qed.

Lemma deduplicate_full c1 c2 :
  (forall x, In x c1 <-> In x c2) ->
  deduplicate c1 = deduplicate c2 /\
  (forall x, In x (deduplicate c1) <-> In x c1) /\
  (forall i j, i < j < length (deduplicate c1) -> nth i (deduplicate c1) 0 < nth j (deduplicate c1) 0).
Proof.
  intros H. split; [now apply deduplicate_perm|]. destruct (deduplicate_ok c1) as [S I]. split; [exact I|].
  intros i j. now apply lt_sorted_nth.
Qed.
