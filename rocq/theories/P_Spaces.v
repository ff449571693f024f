(** A request depends on its query only through the complete tokens and the last token. *)
From Coq Require Import Lia.
From Verif Require Import Base S_Parse M_Parse P_Parse M_Fc M_Auto M_Containers M_Auto1 M_Auto2 M_Blocked S_Spaces.
Local Open Scope nat_scope.

(** ** Respaced queries have the same tokens *)
Lemma words_more body ts : words body ts -> forall a r, body = a ++ 32%N :: r -> words (a ++ 32%N :: 32%N :: r) ts.
Proof.
  induction 1 as [|r0 ts H IH|w r0 ts Hn Hs H IH]; intros a r E.
  - destruct a; discriminate.
  - destruct a as [|x a]; cbn in E |- *; injection E as E; [subst; now repeat constructor|]. subst x. constructor. now apply IH.
  - apply app_eq_app in E. destruct E as ([|x l] & [[E1 E2]|[E1 E2]]).
    + cbn in E2. rewrite app_nil_r in E1. subst a. injection E2 as ->. constructor; auto. now constructor.
    + cbn in E2. rewrite app_nil_r in E1. subst a. injection E2 as ->. constructor; auto. now constructor.
    + exfalso. cbn in E2. injection E2 as <- _. subst w. unfold no_space in Hs. apply Forall_app in Hs. destruct Hs as [_ Hs]. inversion Hs; subst. congruence.
    + cbn in E2. injection E2 as <- E2. subst a. rewrite <- app_assoc. cbn [app]. constructor; auto.
Qed.
Lemma words_less body ts : words body ts -> forall a r, body = a ++ 32%N :: 32%N :: r -> words (a ++ 32%N :: r) ts.
Proof.
  induction 1 as [|r0 ts H IH|w r0 ts Hn Hs H IH]; intros a r E.
  - destruct a; discriminate.
  - destruct a as [|x a]; cbn in E |- *; injection E as E; [subst; exact H|]. subst x. constructor. now apply IH.
  - apply app_eq_app in E. destruct E as ([|x l] & [[E1 E2]|[E1 E2]]).
    + cbn in E2. rewrite app_nil_r in E1. subst a. injection E2 as <-. constructor; auto.
      destruct r as [|y r]; [inversion H as [|? ? H1|w' ? ? Hn1 Hs1 H1 E]; subst; [assumption|]|].
      * destruct w'; [congruence|]. injection E as -> E. inversion Hs1; subst; congruence.
      * inversion H as [|? ? H1|w' ? ? Hn1 Hs1 H1 E]; subst; [assumption|]. destruct w'; [congruence|]. injection E as -> E. inversion Hs1; subst; congruence.
    + cbn in E2. rewrite app_nil_r in E1. subst a. injection E2 as ->. constructor; auto.
      inversion H as [|? ? H1|w' ? ? Hn1 Hs1 H1 E]; subst; [assumption|]. destruct w'; [congruence|]. injection E as -> E. inversion Hs1; subst; congruence.
    + exfalso. cbn in E2. injection E2 as <- _. subst w. unfold no_space in Hs. apply Forall_app in Hs. destruct Hs as [_ Hs]. inversion Hs; subst. congruence.
    + cbn in E2. injection E2 as <- E2. subst a. rewrite <- app_assoc. cbn [app]. constructor; auto.
Qed.
Lemma space_in_body a b body last : a ++ 32%N :: b = body ++ last -> no_space last -> exists r, body = a ++ 32%N :: r /\ b = r ++ last.
Proof.
  revert body. induction a as [|x a IH]; intros body E Hl.
  - destruct body as [|y body]; cbn in E; [subst last; inversion Hl; subst; congruence|]. injection E as <- E. exists body. now split.
  - destruct body as [|y body]; cbn in E.
    + exfalso. subst last. unfold no_space in Hl. rewrite Forall_forall in Hl. apply (Hl 32%N); [right; apply in_or_app; right; now left|reflexivity].
    + injection E as <- E. destruct (IH body E Hl) as (r & -> & ->). exists r. now split.
Qed.
Lemma respaced_split q q' : respaced q q' -> forall ts last, query_split q ts last <-> query_split q' ts last.
Proof.
  induction 1 as [q|q q' _ IH|q q' q'' _ IH1 _ IH2|q|a b]; intros ts last.
  - reflexivity.
  - symmetry. apply IH.
  - now rewrite IH1.
  - split.
    + intros (body & -> & Hl & Hw). exists (32%N :: body). repeat split; auto. now constructor.
    + intros (body & E & Hl & Hw). destruct body as [|y body]; cbn in E; [subst last; inversion Hl; subst; congruence|]. injection E as <- E.
      exists body. repeat split; auto. inversion Hw as [|? ? H1|w' ? ? Hn1 Hs1 H1 E1]; subst; [assumption|]. destruct w'; [congruence|]. injection E1 as -> E1. inversion Hs1; subst; congruence.
  - split; intros (body & E & Hl & Hw).
    + destruct (space_in_body a b body last E Hl) as (r & -> & ->). exists (a ++ 32%N :: 32%N :: r). split; [rewrite <- app_assoc; reflexivity|]. split; [exact Hl|]. now apply (words_more _ _ Hw).
    + destruct (space_in_body a (32%N :: b) body last E Hl) as (r & -> & E2).
      destruct r as [|y r]; cbn in E2; [subst last; inversion Hl; subst; congruence|]. injection E2 as <- ->.
      exists (a ++ 32%N :: r). split; [rewrite <- app_assoc; reflexivity|]. split; [exact Hl|]. now apply (words_less _ _ Hw).
Qed.

(** ** parse, from the tokens *)
Section Tokens.
  Context {St : Type} (locate : list N -> St -> res (option nat * St)) (must : bool).
  Fixpoint parse_tokens (ts : list (list N)) (last : list N) (prefix : list nat) (st : St) : res (option (list nat * list N) * St) :=
    match ts with
    | [] => Ok (Some (prefix, last), st)
    | t :: ts' =>
        do (id, st') <- locate t st;
        match id with
        | Some i => parse_tokens ts' last (prefix ++ [i]) st'
        | None => if must then Ok (None, st') else parse_tokens ts' last prefix st'
        end
    end.
  Lemma take_all w : no_space w -> take_token w = (w, []).
  Proof. induction 1 as [|x w Hx _ IH]; [reflexivity|]. cbn. unfold SPACE. destruct (N.eqb_spec x 32); [congruence|]. now rewrite IH. Qed.
  Lemma take_word w r : no_space w -> take_token (w ++ 32%N :: r) = (w, 32%N :: r).
  Proof. induction 1 as [|x w Hx _ IH]; [reflexivity|]. cbn. unfold SPACE. destruct (N.eqb_spec x 32); [congruence|]. now rewrite IH. Qed.
  Lemma skip_word w r : w <> [] -> no_space w -> skip_spaces (w ++ r) = w ++ r.
  Proof. intros Hn Hs. destruct w as [|x w]; [congruence|]. inversion Hs; subst. cbn. unfold SPACE. destruct (N.eqb_spec x 32); [congruence|reflexivity]. Qed.
  Lemma step_space r prefix st : parse_step St locate must (32%N :: r, prefix, st) = parse_step St locate must (r, prefix, st).
  Proof. reflexivity. Qed.
  Lemma loop_same fuel r r' prefix st : parse_step St locate must (r, prefix, st) = parse_step St locate must (r', prefix, st) ->
    loop fuel (parse_step St locate must) (r, prefix, st) = loop fuel (parse_step St locate must) (r', prefix, st).
  Proof. intros E. destruct fuel as [|fuel]; [reflexivity|]. cbn [loop]. now rewrite E. Qed.
  Lemma loop_tokens body ts last : words body ts -> no_space last -> forall fuel prefix st, length ts < fuel ->
    loop fuel (parse_step St locate must) (body ++ last, prefix, st) = parse_tokens ts last prefix st.
  Proof.
    intros H Hl. induction H as [|r ts H IH|w r ts Hn Hs H IH]; intros fuel prefix st Hf.
    - destruct fuel as [|fuel]; [cbn in Hf; lia|]. cbn [loop app parse_tokens]. unfold parse_step, bri_next.
      assert (E : skip_spaces last = last) by (destruct last as [|x l]; [reflexivity|]; rewrite <- (app_nil_r (x :: l)) at 1; rewrite skip_word; [now rewrite app_nil_r|discriminate|exact Hl]).
      rewrite E, (take_all last Hl). reflexivity.
    - cbn [app]. rewrite (loop_same fuel _ _ prefix st (step_space (r ++ last) prefix st)). now apply IH.
    - destruct fuel as [|fuel]; [cbn in Hf; lia|]. cbn [length] in Hf. rewrite <- app_assoc. cbn [app loop parse_tokens].
      unfold parse_step at 1. unfold bri_next. rewrite (skip_word w _ Hn Hs), (take_word w _ Hs). cbn [bri_has_next length Nat.eqb negb].
      destruct (locate w st) as [[id st']| | |]; cbn [bind]; try reflexivity.
      assert (E : forall p, loop fuel (parse_step St locate must) (32%N :: r ++ last, p, st') = parse_tokens ts last p st')
        by (intros p; rewrite (loop_same fuel _ _ _ _ (step_space (r ++ last) _ _)); apply IH; lia).
      destruct id as [i|]; [apply E|]. clear IH. specialize (E prefix). revert E. destruct must; intros E; [reflexivity|exact E].
  Qed.
  Lemma words_count body ts : words body ts -> length ts <= length body.
  Proof. induction 1 as [|r ts H IH|w r ts Hn Hs H IH]; cbn [length]; [lia|lia|]. rewrite app_length. cbn [length]. lia. Qed.
  Lemma parse_split q ts last st : query_split q ts last -> parse St locate must q st = parse_tokens ts last [] st.
  Proof.
    intros (body & -> & Hl & Hw). unfold parse. apply loop_tokens; [exact Hw|exact Hl|]. pose proof (words_count body ts Hw). rewrite app_length. lia.
  Qed.
End Tokens.

Lemma parse_respaced {St} (locate : list N -> St -> res (option nat * St)) must q q' st : respaced q q' -> parse St locate must q st = parse St locate must q' st.
Proof.
  intros H. destruct (query_split_ex q) as (ts & last & Hq). rewrite (parse_split locate must q ts last st Hq).
  symmetry. apply parse_split. now apply (respaced_split q q' H).
Qed.
Lemma terms_respaced d must q q' b : respaced q q' -> query_terms d must q b = query_terms d must q' b.
Proof. intros H. unfold query_terms. now rewrite (parse_respaced (fc_locate d) must q q' (db_locate b) H). Qed.
Lemma spaces1 K x fuel r r' s : same_request r r' -> ac1_request K x fuel r s = ac1_request K x fuel r' s.
Proof.
  intros (E1 & E2 & H). unfold ac1_request. rewrite E1, E2. destruct (rq_conj r').
  - unfold ac1_conjunctive_topk. now rewrite (terms_respaced _ _ _ _ _ H).
  - unfold ac1_prefix_topk. now rewrite (terms_respaced _ _ _ _ _ H).
Qed.
Lemma start_respaced (x : core) must q q' s : respaced q q' -> start x must q s = start x must q' s.
Proof. intros H. unfold start. now rewrite (terms_respaced _ _ _ _ _ H). Qed.
Lemma core_respaced (K : containers) (x : core) fuel k q q' s : respaced q q' -> core_prefix_topk K x fuel k q s = core_prefix_topk K x fuel k q' s.
Proof. intros H. unfold core_prefix_topk. now rewrite (start_respaced _ _ _ _ _ H). Qed.
Lemma spaces2 K x fuel r r' s : same_request r r' -> ac2_request K x fuel r s = ac2_request K x fuel r' s.
Proof.
  intros (E1 & E2 & H). unfold ac2_request. rewrite E1, E2. destruct (rq_conj r').
  - unfold ac2_conjunctive_topk. now rewrite (start_respaced _ _ _ _ _ H).
  - unfold ac2_prefix_topk. now apply core_respaced.
Qed.
Lemma spaces3 K x fuel r r' s : same_request r r' -> ac3_request K x fuel r s = ac3_request K x fuel r' s.
Proof.
  intros (E1 & E2 & H). unfold ac3_request. rewrite E1, E2. destruct (rq_conj r').
  - unfold ac3_conjunctive_topk. now rewrite (start_respaced _ _ _ _ _ H).
  - unfold ac3_prefix_topk. now apply core_respaced.
Qed.
Lemma spaces4 K x fuel r r' s : same_request r r' -> ac4_request K x fuel r s = ac4_request K x fuel r' s.
Proof.
  intros (E1 & E2 & H). unfold ac4_request. rewrite E1, E2. destruct (rq_conj r').
  - unfold ac4_conjunctive_topk. now rewrite (start_respaced _ _ _ _ _ H).
  - unfold ac4_prefix_topk. now apply core_respaced.
Qed.
Lemma session_same {St} (run : request -> St -> res St) (results : St -> res (list (nat * list N))) rs rs' :
  (forall r r' s, same_request r r' -> run r s = run r' s) -> Forall2 same_request rs rs' -> forall s, session run results rs s = session run results rs' s.
Proof.
  intros H F. induction F as [|r r' rs rs' Hr _ IH]; intros s; [reflexivity|]. cbn [session]. rewrite (H r r' s Hr).
  destruct (run r' s) as [s1| | |]; try reflexivity. cbn [bind]. destruct (results s1); try reflexivity. cbn [bind]. now rewrite IH.
Qed.
