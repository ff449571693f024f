(** Proofs about the page's display of an answer. *)
From Verif Require Import Base S_Order S_Vocab S_Parse M_Fc M_Trie M_Containers S_Containers M_Auto M_Auto1 S_Collection S_Index S_Json M_Web M_Page S_Page M_Request S_Request S_Shown.
From Verif Require Import P_Page.
Local Open Scope N_scope.
Local Open Scope list_scope.

Lemma spelled_space s ws : spelled white s ws -> spelled white (32 :: s) ws.
Proof.
  intros H. assert (Ec : white 32 = true) by reflexivity. inversion H as [s0 Hs|s0 w Hs Hn Hw|s0 w d r ws0 Hs Hn Hw Hd Hr]; subst.
  - constructor. constructor; assumption.
  - exact (sp_last _ (32 :: s0) w (Forall_cons _ Ec Hs) Hn Hw).
  - exact (sp_word _ (32 :: s0) w d r ws0 (Forall_cons _ Ec Hs) Hn Hw Hd Hr).
Qed.
Lemma only_spaces w : no_space w -> Forall (fun c => white c = true -> c = 32) w -> Forall (fun c => white c = false) w.
Proof.
  intros H1 H2. apply Forall_forall. intros c Hc. unfold no_space in H1. rewrite Forall_forall in H1, H2. specialize (H1 c Hc). specialize (H2 c Hc).
  destruct (white c); [|reflexivity]. exfalso. apply H1. apply H2. reflexivity.
Qed.
Definition typed_words (ts : list (list N)) (last : list N) : list (list N) := ts ++ match last with [] => [] | _ => [last] end.
Lemma split_spelled q ts last : query_split q ts last -> Forall (fun c => white c = true -> c = 32) q -> spelled white q (typed_words ts last).
Proof.
  intros (body & -> & Hl & Hw). unfold typed_words. induction Hw as [|r ts Hw IH|w r ts Hn Hs Hw IH]; intros H.
  - cbn [app] in *. destruct last as [|x last]; [constructor; constructor|].
    exact (sp_last _ [] (x :: last) (Forall_nil _) ltac:(discriminate) (only_spaces _ Hl H)).
  - cbn [app] in *. inversion H as [|? ? _ H']; subst. apply spelled_space. exact (IH H').
  - rewrite <- app_assoc in *. cbn [app] in *. apply Forall_app in H. destruct H as [H1 H2]. inversion H2 as [|? ? _ H3]; subst.
    exact (sp_word _ [] w 32 (r ++ last) _ (Forall_nil _) Hn (only_spaces _ Hs H1) eq_refl (IH H3)).
Qed.
Lemma words_incl body ts : words body ts -> forall w c, In w ts -> In c w -> In c body.
Proof.
  intros H. induction H as [|r ts H IH|v r ts Hn Hs H IH]; intros w c Hw Hc; [destruct Hw|right; exact (IH w c Hw Hc)|].
  apply in_app_iff. destruct Hw as [<-|Hw]; [left; exact Hc|right; right; exact (IH w c Hw Hc)].
Qed.
Lemma split_ordinary q ts last : query_split q ts last -> ordinary q -> Forall ordinary (typed_words ts last).
Proof.
  intros (body & -> & _ & Hw) H. unfold ordinary in *. rewrite Forall_forall in H. apply Forall_forall. intros w Hi. apply Forall_forall. intros c Hc. apply H.
  apply in_app_iff. apply in_app_iff in Hi. destruct Hi as [Hi|Hi]; [left; exact (words_incl body ts Hw w c Hi Hc)|right].
  destruct last as [|x last]; [destruct Hi|]. destruct Hi as [<-|[]]. exact Hc.
Qed.

Lemma join_factor ws w : In w ws -> exists a b, join ws = a ++ w ++ b.
Proof.
  induction ws as [|v ws IH]; intros H; [destruct H|]. destruct H as [->|H].
  - destruct ws as [|v' ws]; [exists [], []; cbn [join app]; symmetry; apply app_nil_r|]. exists [], (32 :: join (v' :: ws)). reflexivity.
  - destruct (IH H) as (a & b & E). destruct ws as [|v' ws]; [destruct H|]. exists (v ++ 32 :: a), b.
    change (join (v :: v' :: ws)) with (v ++ 32 :: join (v' :: ws)). rewrite E, <- app_assoc. reflexivity.
Qed.

Lemma split_map {A B} (f : A -> B) t : forall a b, map f t = a ++ b -> exists t1 t2, t = t1 ++ t2 /\ map f t1 = a /\ map f t2 = b.
Proof.
  intros a b E. exists (firstn (length a) t), (skipn (length a) t). split; [symmetry; apply firstn_skipn|].
  rewrite <- firstn_map, <- skipn_map, E, firstn_app, skipn_app, Nat.sub_diag, firstn_all, skipn_all. cbn [firstn skipn app]. rewrite app_nil_r. auto.
Qed.
Lemma occurs_marked same ws w a b t : (forall x, same x x = true) -> highlighted same ws t -> In w ws -> w <> [] -> map fst t = a ++ w ++ b -> marked same w t.
Proof.
  intros Hr [H1 _] Hi Hn E. destruct w as [|x w]; [congruence|]. destruct (split_map fst t a _ E) as (t1 & t2 & -> & _ & E2).
  destruct t2 as [|[y bo] t2]; [discriminate E2|]. cbn [map fst app] in E2. injection E2 as -> E2.
  assert (Hb : begins same (x :: w) (x :: map fst t2)).
  { exists (x :: w), b. split; [rewrite E2; reflexivity|]. clear - Hr. generalize (x :: w). intros l. induction l; constructor; auto. }
  destruct bo.
  - exists t1, x, t2. split; [reflexivity|exact Hb].
  - exfalso. exact (H1 t1 x t2 eq_refl (x :: w) Hi Hb).
Qed.

Lemma prefix_factor p w s a b : is_prefix p w -> s = a ++ w ++ b -> exists b', s = a ++ p ++ b'.
Proof. intros (t & ->) ->. exists (t ++ b). rewrite <- app_assoc. reflexivity. Qed.

Lemma answer_shown same re c q ts last k out : regexp_ok same re -> (forall x, same x x = true) ->
  query_split q ts last -> last <> [] -> simple_text q -> topk_answer c (conj_match c ts last) k out ->
  forall d s, In (d, s) out -> no_own_tag s ->
  exists html t, format_result re s q = Ok html /\ shows false html t /\ map fst t = s /\ marked same last t /\
    forall w, In w ts -> In w (terms c) -> marked same w t.
Proof.
  intros Hre Hr Hq Hl [Ho Hs] (_ & _ & Ha & _) d s Hi Hn.
  pose proof (split_spelled q ts last Hq Hs) as Hsp. pose proof (split_ordinary q ts last Hq Ho) as Hor.
  assert (Hin : In last (typed_words ts last)) by (unfold typed_words; apply in_app_iff; right; destruct last; [congruence|now left]).
  destruct (page_words same re s q (typed_words ts last) Hre Hsp) as (html & t & E1 & E2 & E3 & E4);
    [intros E; rewrite E in Hin; destruct Hin|exact Hor|exact Hn|].
  exists html, t. split; [exact E1|]. split; [exact E2|]. split; [exact E3|].
  destruct (Ha d s Hi) as (ids & _ & [Hc1 (v & Hv & Hp)] & Et). unfold text in Et. split.
  - destruct (join_factor _ _ Hv) as (a & b & Ej). rewrite <- Et in Ej. destruct (prefix_factor _ _ _ _ _ Hp Ej) as (b' & Eb).
    apply (occurs_marked same _ _ a b' t Hr E4 Hin Hl). rewrite E3. exact Eb.
  - intros w Hw Hk. destruct (join_factor _ _ (Hc1 w Hw Hk)) as (a & b & Ej). rewrite <- Et in Ej.
    assert (Hw' : In w (typed_words ts last)) by (unfold typed_words; apply in_app_iff; now left).
    apply (occurs_marked same _ _ a b t Hr E4 Hw'); [|rewrite E3; exact Ej].
    pose proof (spelled_ne _ _ Hsp) as Hne. rewrite Forall_forall in Hne. exact (Hne w Hw').
Qed.
