(** Proofs: sets, sorting and dictionaries of the preprocessing scripts; UTF-8 keeps the order. *)
From Coq Require Import Sorted Permutation.
From Verif Require Import Base S_Python S_Order P_Order S_Json S_Text S_Collection S_Prep M_Prep P_PrepText.
Local Open Scope nat_scope.
Section Python.
Context {py : python}.

(** ** Strings *)
Lemma str_eqb_spec s : forall t, reflect (s = t) (str_eqb s t).
Proof.
  induction s as [|a s IH]; intros [|b t]; cbn [str_eqb]; try (constructor; congruence). destruct (N.eqb_spec a b) as [->|H]; cbn [andb].
  - destruct (IH t) as [->|H]; constructor; congruence.
  - constructor. congruence.
Qed.
Lemma str_ltb_spec s : forall t, str_ltb s t = true <-> lex_lt s t.
Proof.
  induction s as [|a s IH]; intros [|b t]; cbn [str_ltb].
  - split; [discriminate|intros H; inversion H].
  - split; [constructor|reflexivity].
  - split; [discriminate|intros H; inversion H].
  - destruct (N.eqb_spec a b) as [->|Hn].
    + rewrite IH. split; [now constructor|]. intros H. inversion H; subst; [lia|assumption].
    + rewrite N.ltb_lt. split; [now constructor|]. intros H. inversion H; subst; [assumption|congruence].
Qed.

(** ** Sets and sorting *)
Section Sets.
Context {A : Type} (eqb ltb : A -> A -> bool) (lt : A -> A -> Prop).
Hypothesis eqb_spec : forall a b, reflect (a = b) (eqb a b).
Hypothesis ltb_spec : forall a b, ltb a b = true <-> lt a b.
Hypothesis lt_irrefl : forall a, ~ lt a a.
Hypothesis lt_trans : forall a b c, lt a b -> lt b c -> lt a c.
Hypothesis lt_total : forall a b, lt a b \/ a = b \/ lt b a.

Lemma set_add_in s x y : In y (set_add eqb s x) <-> y = x \/ In y s.
Proof.
  unfold set_add. destruct (existsb (eqb x) s) eqn:E; [|cbn [In]; intuition].
  apply existsb_exists in E as (z & Hz & E). destruct (eqb_spec x z) as [->|]; [|discriminate]. intuition; subst; assumption.
Qed.
Lemma set_add_nodup s x : NoDup s -> NoDup (set_add eqb s x).
Proof.
  intros H. unfold set_add. destruct (existsb (eqb x) s) eqn:E; [exact H|]. constructor; [|exact H]. intros Hx.
  assert (existsb (eqb x) s = true); [|congruence]. apply existsb_exists. exists x. split; [exact Hx|]. destruct (eqb_spec x x); [reflexivity|congruence].
Qed.
Lemma fold_add_in l : forall s y, In y (fold_left (set_add eqb) l s) <-> In y l \/ In y s.
Proof. induction l as [|x l IH]; intros s y; cbn [fold_left In]; [intuition|]. rewrite IH, set_add_in. intuition. Qed.
Lemma fold_add_nodup l : forall s, NoDup s -> NoDup (fold_left (set_add eqb) l s).
Proof. induction l as [|x l IH]; intros s H; [exact H|]. cbn [fold_left]. apply IH. now apply set_add_nodup. Qed.

Lemma insert_perm x l : Permutation (insert ltb x l) (x :: l).
Proof.
  induction l as [|y l IH]; [reflexivity|]. cbn [insert]. destruct (ltb y x); [|reflexivity]. rewrite IH. apply perm_swap.
Qed.
Lemma sorted_perm l : Permutation (sorted ltb l) l.
Proof. induction l as [|x l IH]; [reflexivity|]. cbn [sorted fold_right]. rewrite insert_perm. now apply perm_skip. Qed.
Lemma insert_sorted x l : StronglySorted lt l -> ~ In x l -> StronglySorted lt (insert ltb x l).
Proof.
  induction l as [|y l IH]; intros H Hx; [repeat constructor|]. apply StronglySorted_inv in H as (H & Hy). cbn [insert]. destruct (ltb y x) eqn:E.
  - apply ltb_spec in E. constructor; [apply IH; [exact H|intros Hi; apply Hx; now right]|]. apply Forall_forall. intros z Hz.
    apply (Permutation_in _ (insert_perm x l)) in Hz as [->|Hz]; [exact E|]. rewrite Forall_forall in Hy. now apply Hy.
  - assert (Hlt : lt x y). { destruct (lt_total x y) as [L|[->|L]]; [exact L|exfalso; apply Hx; now left|apply ltb_spec in L; congruence]. }
    constructor; [constructor; assumption|]. constructor; [exact Hlt|]. eapply Forall_impl; [|exact Hy]. intros z Hz. now apply (lt_trans x y z).
Qed.
Lemma sorted_sorted l : NoDup l -> StronglySorted lt (sorted ltb l).
Proof.
  induction l as [|x l IH]; intros H; [constructor|]. apply NoDup_cons_iff in H as (H1 & H2). cbn [sorted fold_right]. apply insert_sorted; [now apply IH|].
  intros Hi. apply H1. exact (Permutation_in _ (sorted_perm l) Hi).
Qed.
Lemma strict_unique l : forall m, StronglySorted lt l -> StronglySorted lt m -> (forall x, In x l <-> In x m) -> l = m.
Proof.
  induction l as [|a l IH]; intros m Hl Hm H.
  - destruct m as [|b m]; [reflexivity|]. exfalso. apply (proj2 (H b)). now left.
  - destruct m as [|b m]; [exfalso; apply (proj1 (H a)); now left|]. apply StronglySorted_inv in Hl as (Hl & Ha), Hm as (Hm & Hb). rewrite Forall_forall in Ha, Hb.
    assert (a = b) as <-. { destruct (proj1 (H a)) as [E|Ha']; [now left|congruence|]. destruct (proj2 (H b)) as [E|Hb']; [now left|congruence|].
      exfalso. apply (lt_irrefl a). eapply lt_trans; [apply Ha, Hb'|apply Hb, Ha']. }
    f_equal. apply IH; [assumption..|]. intros x. split; intros Hx.
    + destruct (proj1 (H x)) as [<-|Hx']; [now right|exfalso; apply (lt_irrefl a); now apply Ha|exact Hx'].
    + destruct (proj2 (H x)) as [<-|Hx']; [now right|exfalso; apply (lt_irrefl a); now apply Hb|exact Hx'].
Qed.
Lemma sorted_id l : StronglySorted lt l -> sorted ltb l = l.
Proof.
  induction l as [|x l IH]; intros H; [reflexivity|]. apply StronglySorted_inv in H as (H & Hx). cbn [sorted fold_right].
  change (fold_right (insert ltb) [] l) with (sorted ltb l). rewrite IH by exact H. destruct l as [|y l]; [reflexivity|]. cbn [insert]. inversion Hx as [|? ? Hxy _]; subst.
  destruct (ltb y x) eqn:E; [|reflexivity]. apply ltb_spec in E. exfalso. apply (lt_irrefl x). now apply (lt_trans x y x).
Qed.
End Sets.

Lemma ssorted_lex l : StronglySorted lex_lt l -> lex_sorted l.
Proof.
  induction l as [|a l IH]; intros H; [exact I|]. apply StronglySorted_inv in H as (H & Ha). cbn [lex_sorted]. split; [|now apply IH].
  destruct l; [exact I|]. now inversion Ha.
Qed.
Lemma lex_ssorted l : lex_sorted l -> StronglySorted lex_lt l.
Proof.
  induction l as [|a l IH]; intros H; [constructor|]. constructor; [apply IH; exact (lex_sorted_tl _ _ H)|]. apply Forall_forall. intros x Hx. exact (lex_sorted_head _ _ _ H Hx).
Qed.

(** ** The vocabulary *)
Definition rows_tokens (rows : list (list (list N))) : list (list N) := flat_map (@tl _) rows.
Lemma dict_tokens_fold ls : forall s, fold_left (fun tokens line => fold_left (set_add str_eqb) (tl (columns line)) tokens) ls s =
  fold_left (set_add str_eqb) (rows_tokens (map columns ls)) s.
Proof. induction ls as [|l ls IH]; intros s; [reflexivity|]. cbn [fold_left map rows_tokens flat_map]. rewrite fold_left_app. apply IH. Qed.
Definition vocab (rows : list (list (list N))) : list (list N) := sorted str_ltb (fold_left (set_add str_eqb) (rows_tokens rows) []).
Lemma extract_dict_ok text rows : map columns (read_lines text) = rows -> extract_dict text = flat_map (fun key => key ++ NL) (vocab rows).
Proof. intros <-. unfold extract_dict, dict_tokens. now rewrite dict_tokens_fold. Qed.
Lemma vocab_sorted rows : lex_sorted (vocab rows).
Proof.
  apply ssorted_lex. apply (sorted_sorted str_ltb lex_lt).
  - intros a b. apply str_ltb_spec.
  - apply lex_trans.
  - apply lex_total.
  - apply (fold_add_nodup str_eqb str_eqb_spec). constructor.
Qed.
Lemma vocab_in rows w : In w (vocab rows) <-> In w (rows_tokens rows).
Proof.
  unfold vocab. pose proof (sorted_perm str_ltb (fold_left (set_add str_eqb) (rows_tokens rows) [])) as HP.
  assert (E : In w (sorted str_ltb (fold_left (set_add str_eqb) (rows_tokens rows) [])) <-> In w (fold_left (set_add str_eqb) (rows_tokens rows) [])).
  { split; apply Permutation_in; [exact HP|symmetry; exact HP]. }
  rewrite E, (fold_add_in str_eqb str_eqb_spec). cbn [In]. intuition.
Qed.

(** The 1-based position of a word in the vocabulary. *)
Fixpoint index (l : list (list N)) (w : list N) : nat :=
  match l with
  | [] => 0
  | v :: l' => if str_eqb w v then 0 else S (index l' w)
  end.
Definition id_of (l : list (list N)) (w : list N) : N := N.of_nat (index l w + 1).
Lemma index_nth l w : In w l -> nth_error l (index l w) = Some w.
Proof.
  induction l as [|v l IH]; intros H; [destruct H|]. cbn [index]. destruct (str_eqb_spec w v) as [->|Hn]; [reflexivity|]. destruct H as [->|H]; [congruence|]. now apply IH.
Qed.
Lemma index_lt l w : In w l -> index l w < length l.
Proof. intros H. apply nth_error_Some. rewrite index_nth by exact H. discriminate. Qed.
Lemma index_mono l v w : lex_sorted l -> In v l -> In w l -> lex_lt v w -> index l v < index l w.
Proof.
  intros Hs Hv Hw Hlt. destruct (Nat.lt_trichotomy (index l v) (index l w)) as [H|[H|H]]; [exact H| |].
  - pose proof (index_nth l v Hv) as E1. pose proof (index_nth l w Hw) as E2. rewrite H in E1. assert (v = w) by congruence. subst. exfalso. exact (lex_irrefl _ Hlt).
  - exfalso. pose proof (lex_sorted_nth l (index l w) (index l v) [] Hs (conj H (index_lt l v Hv))) as HH.
    rewrite (nth_error_nth _ _ [] (index_nth l v Hv)), (nth_error_nth _ _ [] (index_nth l w Hw)) in HH. exact (lex_asym _ _ Hlt HH).
Qed.

(** ** The dictionary the scripts read back *)
Definition numbered (k : N) (l : list (list N)) : list (list N * N) := combine l (map (fun i => (k + N.of_nat i)%N) (seq 0 (length l))).
Lemma numbered_cons k w l : numbered k (w :: l) = (w, k) :: numbered (k + 1) l.
Proof.
  unfold numbered. cbn [length seq map combine]. f_equal; [f_equal; lia|]. f_equal. rewrite <- seq_shift, map_map. apply map_ext. intros i. lia.
Qed.
Lemma dict_set_new {V} (d : list (list N * V)) k v : ~ In k (map fst d) -> dict_set str_eqb d k v = d ++ [(k, v)].
Proof.
  induction d as [|(k', v') d IH]; intros H; [reflexivity|]. cbn [dict_set map fst In] in *. destruct (str_eqb_spec k k') as [->|]; [tauto|]. rewrite IH by tauto. reflexivity.
Qed.
Lemma read_dict_fold l : forall d k, Forall no_eol l -> NoDup (map fst d ++ l) ->
  fold_left (fun s line => (dict_set str_eqb (fst s) (rstrip line) (snd s), (snd s + 1)%N)) (map (fun w => w ++ NL) l) (d, k) = (d ++ numbered k l, (k + N.of_nat (length l))%N).
Proof.
  induction l as [|w l IH]; intros d k He Hn.
  - cbn [map fold_left length]. unfold numbered. cbn [length seq map combine]. rewrite app_nil_r. f_equal. lia.
  - inversion He as [|? ? H1 H2]; subst. cbn [map fold_left fst snd]. unfold NL. rewrite rstrip_nl by now apply no_nl.
    assert (Hw : ~ In w (map fst d)). { intros Hi. apply NoDup_remove_2 in Hn. apply Hn. apply in_or_app. now left. }
    rewrite dict_set_new by exact Hw. fold NL. rewrite IH.
    + rewrite numbered_cons, <- app_assoc. cbn [app length]. f_equal. lia.
    + exact H2.
    + rewrite map_app, <- app_assoc. exact Hn.
Qed.
Lemma read_dict_ok l : Forall no_eol l -> NoDup l -> read_dict (flat_map (fun w => w ++ NL) l) = numbered 1 l.
Proof. intros H1 H2. unfold read_dict. rewrite read_written by exact H1. rewrite read_dict_fold; [reflexivity|exact H1|exact H2]. Qed.
Lemma numbered_get l : forall k w, In w l -> dict_get str_eqb (numbered k l) w = Some (k + N.of_nat (index l w))%N.
Proof.
  induction l as [|v l IH]; intros k w H; [destruct H|]. rewrite numbered_cons. cbn [dict_get index]. destruct (str_eqb_spec w v) as [->|Hn]; [f_equal; lia|].
  destruct H as [->|H]; [congruence|]. rewrite IH by exact H. f_equal. lia.
Qed.
Lemma get_id l w : In w l -> dict_get str_eqb (numbered 1 l) w = Some (id_of l w).
Proof. intros H. rewrite numbered_get by exact H. unfold id_of. f_equal. lia. Qed.
Lemma numbered_length k l : length (numbered k l) = length l.
Proof. unfold numbered. rewrite combine_length, map_length, seq_length. lia. Qed.

(** ** UTF-8 *)
Definition scalar (c : N) : Prop := (c < 1114112)%N.
Lemma utf8_head c d : scalar c -> scalar d -> (c < d)%N -> forall s t, lex_lt (code c ++ s) (code d ++ t).
Proof.
  intros Hc Hd H s t. unfold scalar in *. unfold code. destruct py; [now apply lex_head|]. unfold utf8.
  destruct (N.ltb_spec c 128); [destruct (N.ltb_spec d 128); [|destruct (N.ltb_spec d 2048); [|destruct (N.ltb_spec d 65536)]]; cbn [app]; apply lex_head; lia|].
  destruct (N.ltb_spec c 2048).
  { destruct (N.ltb_spec d 128); [lia|]. destruct (N.ltb_spec d 2048); [|destruct (N.ltb_spec d 65536)]; cbn [app]; try (apply lex_head; lia).
    destruct (N.eq_dec (c / 64) (d / 64)) as [E|E]; [rewrite E; apply lex_tail, lex_head|apply lex_head]; lia. }
  destruct (N.ltb_spec c 65536).
  { destruct (N.ltb_spec d 128); [lia|]. destruct (N.ltb_spec d 2048); [lia|]. destruct (N.ltb_spec d 65536); cbn [app]; try (apply lex_head; lia).
    destruct (N.eq_dec (c / 4096) (d / 4096)) as [E|E]; [|apply lex_head; lia]. rewrite E. apply lex_tail.
    destruct (N.eq_dec (c / 64 mod 64) (d / 64 mod 64)) as [E2|E2]; [rewrite E2; apply lex_tail, lex_head; lia|apply lex_head; lia]. }
  destruct (N.ltb_spec d 128); [lia|]. destruct (N.ltb_spec d 2048); [lia|]. destruct (N.ltb_spec d 65536); [lia|]. cbn [app].
  destruct (N.eq_dec (c / 262144) (d / 262144)) as [E|E]; [|apply lex_head; lia]. rewrite E. apply lex_tail.
  destruct (N.eq_dec (c / 4096 mod 64) (d / 4096 mod 64)) as [E2|E2]; [|apply lex_head; lia]. rewrite E2. apply lex_tail.
  destruct (N.eq_dec (c / 64 mod 64) (d / 64 mod 64)) as [E3|E3]; [rewrite E3; apply lex_tail, lex_head; lia|apply lex_head; lia].
Qed.
Lemma code_nonempty c : code c <> [].
Proof. unfold code, utf8. destruct py; [discriminate|]. destruct (c <? 128)%N, (c <? 2048)%N, (c <? 65536)%N; discriminate. Qed.
Lemma encoded_lt s t : lex_lt s t -> Forall scalar s -> Forall scalar t -> lex_lt (encoded s) (encoded t).
Proof.
  induction 1 as [y ys|x y xs ys H|x xs ys H IH]; intros Hs Ht; unfold encoded in *; cbn [flat_map].
  - destruct (code y) as [|b u] eqn:E; [destruct (code_nonempty _ E)|]. constructor.
  - inversion Hs; inversion Ht; subst. now apply utf8_head.
  - inversion Hs; inversion Ht; subst. apply lex_app_r. now apply IH.
Qed.
Lemma encoded_ascii s : Forall (fun c => (c < 128)%N) s -> encoded s = s.
Proof.
  unfold encoded. induction 1 as [|c s H Hs IH]; [reflexivity|]. cbn [flat_map]. replace (code c) with [c]; [cbn [app]; now rewrite IH|]. unfold code. destruct py; [reflexivity|]. unfold utf8. destruct (N.ltb_spec c 128); [reflexivity|lia].
Qed.
Lemma encode_encoded s : encode s = encoded s.
Proof. unfold encode, encoded, code. destruct py; [|reflexivity]. induction s as [|c s IH]; [reflexivity|]. cbn [flat_map app]. now rewrite <- IH. Qed.
Lemma encoded_app s t : encoded (s ++ t) = encoded s ++ encoded t.
Proof. apply flat_map_app. Qed.
(** The bytes of a character: itself, or at least 128. *)
Lemma code_bytes c : letter c -> Forall (fun b => (32 < b)%N /\ (b < 256)%N) (code c).
Proof.
  intros ((H1 & H2) & _). unfold code, characters in *. destruct py; [repeat constructor; lia|]. unfold utf8. destruct (N.ltb_spec c 128), (N.ltb_spec c 2048), (N.ltb_spec c 65536); repeat constructor; lia.
Qed.
Lemma encoded_bytes w : Forall letter w -> Forall (fun b => (32 < b)%N /\ (b < 256)%N) (encoded w).
Proof. unfold encoded. induction 1 as [|c w H Hw IH]; [constructor|]. cbn [flat_map]. apply Forall_app. split; [now apply code_bytes|exact IH]. Qed.
End Python.
