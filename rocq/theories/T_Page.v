(** C79: what the page shows for a suggestion. *)
From Coq Require Import String.
From Verif Require Import Base S_Order S_Vocab S_Parse M_Trie M_Containers S_Containers M_Auto M_Auto1 S_Collection S_Index S_Json M_Web M_Page S_Page.
From Verif Require Import P_Auto1 P_ListContainers P_Web P_Page T_Auto1 T_Web.
Local Open Scope N_scope.
Local Open Scope list_scope.

(** Whatever the suggestion consists of, whatever has been typed (but not nothing) and whatever the browser makes of it as a regular
    expression: the HTML has no markup but <strong>. *)
Theorem C79_no_markup_partial : forall re value current html,
  current <> [] -> format_result re value current = Ok html -> only_bold html.
Proof. exact page_bold. Qed.
(** It shows the suggestion, all of it, in order, unless the suggestion itself spells one of the two tags. *)
Theorem C79_text_partial : forall same re value current html,
  regexp_ok same re -> current <> [] -> no_own_tag value -> format_result re value current = Ok html ->
  exists t, shows false html t /\ map fst t = value.
Proof. exact page_text. Qed.
(** Words without characters that are special in regular expressions: nothing is thrown, and what is typed is highlighted. *)
Theorem C79_highlight_partial : forall same re value current ws,
  regexp_ok same re -> spelled white current ws -> ws <> [] -> Forall ordinary ws -> no_own_tag value ->
  exists html t, format_result re value current = Ok html /\ shows false html t /\ map fst t = value /\ highlighted same ws t.
Proof. exact page_words. Qed.
(** Only spaces: nothing is highlighted. *)
Theorem C79_spaces : forall same re value current,
  regexp_ok same re -> current <> [] -> Forall (fun c => white c = true) current -> no_own_tag value ->
  exists html, format_result re value current = Ok html /\ shows false html (map (fun c => (c, false)) value).
Proof. exact page_blank. Qed.
(** HTML shows one text only, and every typed text has words: the statements above are about something definite. *)
Theorem C79_definite : (forall b html t t', shows b html t -> shows b html t' -> t = t') /\ (forall s, exists ws, spelled white s ws).
Proof.
  split; [|exact (fun s => proj1 (spelled_exists s))].
  intros b html t t' H H'. exact (shows_det b html t H b html t' H' eq_refl eq_refl).
Qed.
Definition all_page := (C79_no_markup_partial, C79_text_partial, C79_highlight_partial, C79_spaces, C79_definite).
Print Assumptions all_page.

(** A regular expression that knows words of ordinary characters only. *)
Fixpoint split_bar (s w : list N) : list (list N) :=
  match s with [] => [rev w] | c :: s' => if c =? 124 then rev w :: split_bar s' [] else split_bar s' (c :: w) end.
Definition re_words : regexp := fun k v => cut_words N.eqb (split_bar k []) v.
Lemma split_word : forall w r v, Forall (fun c => c <> 124) w -> split_bar (w ++ r) v = split_bar r (rev w ++ v).
Proof.
  induction w as [|c w IH]; intros r v H; [reflexivity|]. inversion H as [|? ? Hc Hw]; subst. cbn [app split_bar].
  destruct (N.eqb_spec c 124) as [|_]; [congruence|]. rewrite (IH r _ Hw). cbn [rev]. rewrite <- app_assoc. reflexivity.
Qed.
Lemma split_alternatives : forall ws k, alternatives ws k -> Forall ordinary ws -> split_bar k [] = ws.
Proof.
  intros ws k Hk. induction Hk as [w|w ws k Hk IH]; intros Hp; inversion Hp as [|? ? Hw Hws]; subst.
  all: assert (H : Forall (fun c => c <> 124) w) by
    (apply Forall_forall; intros c Hc ->; unfold ordinary in Hw; rewrite Forall_forall in Hw; apply (Hw 124 Hc); cbn; tauto).
  - rewrite <- (app_nil_r w) at 1. rewrite (split_word w [] [] H), app_nil_r. cbn [split_bar]. rewrite rev_involutive. reflexivity.
  - rewrite (split_word w _ [] H), app_nil_r. cbn [split_bar]. rewrite rev_involutive. change (124 =? 124) with true. cbv iota.
    rewrite (IH Hws). reflexivity.
Qed.
Lemma re_words_ok : regexp_ok N.eqb re_words.
Proof.
  split.
  - intros k v ps E. exact (cut_text N.eqb _ _ _ _ E).
  - intros ws k v Hk Hp. unfold re_words. rewrite (split_alternatives ws k Hk Hp). reflexivity.
Qed.

Definition ordinaryb (w : list N) : bool := forallb (fun c => negb (existsb (N.eqb c) (bytes "\^$.*+?()[]{}|"))) w.
Lemma ordinaryb_ok : forall w, ordinaryb w = true -> ordinary w.
Proof.
  intros w H. unfold ordinaryb in H. rewrite forallb_forall in H. apply Forall_forall. intros c Hc Hi. specialize (H c Hc).
  apply negb_true_iff in H. assert (Ht : existsb (N.eqb c) (bytes "\^$.*+?()[]{}|") = true) by (apply existsb_exists; exists c; split; [exact Hi|apply N.eqb_refl]).
  congruence.
Qed.

(** F58: with nothing typed, the suggestion goes into the page as it is. The server answers the empty query with the best completions
    (C73), so a completion <img> becomes an element of the page as soon as the box is emptied. *)
Definition coll_markup : collection :=
  {| terms := [bytes "<img>"; bytes "a"]; comps := [[1]; [2]]; docs := [0%nat; 1%nat]; universe := 2 |}.
Theorem C79_empty_box_refuted :
  wf_collection coll_markup /\
  (exists data v, web coll_markup [] (bytes "1") = Ok data /\ is_json data v /\ suggestions [bytes "<img>"] v) /\
  forall re, format_result re (bytes "<img>") [] = Ok (bytes "<img>") /\ ~ only_bold (bytes "<img>").
Proof.
  split; [apply wf_collectionb_ok; reflexivity|]. split.
  - destruct (body_json {| p_scores := [1%nat]; p_offsets := [0%nat; 5%nat]; p_data := bytes "<img>" |} [(1%nat, bytes "<img>")]) as (data & v & E & Hj & Hv);
      [reflexivity|discriminate|].
    exists data, v. split; [|split; [exact Hj|exact Hv]]. rewrite <- E. vm_compute. reflexivity.
  - intros re. split; [reflexivity|]. intros H. remember (bytes "<img>") as s eqn:E. destruct H as [|h Hh|h Hh|e c h He Hh|c h Hc Hh].
    1-3: cbn in E; discriminate E.
    + destruct He; cbn in E; discriminate E.
    + cbn in E. injection E as -> _. apply Hc. cbn. tauto.
Qed.
(** F59: a suggestion that spells the tags is shown without them. *)
Theorem C79_own_tag_refuted :
  exists html, format_result re_words (bytes "<strong>a</strong>") (bytes "b") = Ok html /\
    (forall t, shows false html t -> t = [(97, true)]) /\ shows false html [(97, true)].
Proof.
  exists (bytes "<strong>" ++ 97 :: bytes "</strong>" ++ []). split; [vm_compute; reflexivity|].
  assert (H : shows false (bytes "<strong>" ++ 97 :: bytes "</strong>" ++ []) [(97, true)]).
  { apply sh_open. apply sh_char; [cbn; intuition discriminate|]. apply sh_close. apply sh_end. }
  split; [|exact H]. intros t Ht. exact (proj1 C79_definite _ _ _ _ Ht H).
Qed.
Definition all_not_shown := (C79_empty_box_refuted, C79_own_tag_refuted).
Print Assumptions all_not_shown.

(** The words "ab" and "<" typed, for a suggestion with all the characters that need escaping. *)
Example C79_nonvacuous :
  let v := bytes "ab<cab""&>" in let cur := bytes " ab  <" in let ws := [bytes "ab"; bytes "<"] in
  regexp_ok N.eqb re_words /\ spelled white cur ws /\ Forall ordinary ws /\ no_own_tag v /\
  format_result re_words v cur =
    Ok (bytes "<strong>ab</strong><strong>&lt;</strong>c<strong>ab</strong>&quot;&amp;&gt;").
Proof.
  cbv zeta. split; [exact re_words_ok|]. split.
  - apply (sp_word _ [32] (bytes "ab") 32 [32; 60] [bytes "<"]); [repeat constructor|discriminate|repeat constructor|reflexivity|].
    apply (sp_last _ [32] [60]); [repeat constructor|discriminate|repeat constructor].
  - split; [constructor; [apply ordinaryb_ok; reflexivity|constructor; [apply ordinaryb_ok; reflexivity|constructor]]|]. split; [|vm_compute; reflexivity].
    split; intros (a & b & E);
      repeat (destruct a as [|? a]; [vm_compute in E; discriminate E|cbn in E; injection E as _ E]); destruct a; discriminate E.
Qed.
