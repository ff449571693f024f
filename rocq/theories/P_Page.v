(** Proofs about web/topkcomp.js. *)
From Coq Require Import String.
From Verif Require Import Base S_Json M_Page S_Page.
Local Open Scope N_scope.
Local Open Scope list_scope.

Definition esc (c : N) : list N :=
  if c =? 38 then bytes "&amp;" else if c =? 60 then bytes "&lt;" else if c =? 62 then bytes "&gt;" else if c =? 34 then bytes "&quot;" else [c].

Lemma replace_app : forall c r a b, replace_char c r (a ++ b) = replace_char c r a ++ replace_char c r b.
Proof. intros c r a b. induction a as [|x a IH]; [reflexivity|]. cbn [app replace_char]. rewrite IH. apply app_assoc. Qed.

Lemma escapes : forall s,
  replace_char 34 (bytes "&quot;") (replace_char 62 (bytes "&gt;") (replace_char 60 (bytes "&lt;") (replace_char 38 (bytes "&amp;") s))) = flat_map esc s.
Proof.
  induction s as [|c s IH]; [reflexivity|]. cbn [replace_char flat_map]. rewrite !replace_app, IH. f_equal. unfold esc.
  destruct (N.eqb_spec c 38) as [->|H38]; [reflexivity|]. cbn [replace_char app].
  destruct (N.eqb_spec c 60) as [->|H60]; [reflexivity|]. cbn [replace_char app].
  destruct (N.eqb_spec c 62) as [->|H62]; [reflexivity|]. cbn [replace_char app].
  destruct (N.eqb_spec c 34) as [->|H34]; reflexivity.
Qed.

Lemma esc_cases : forall c, (c = 38 \/ c = 60 \/ c = 62 \/ c = 34) \/ (~ In c [38; 60; 62; 34] /\ esc c = [c]).
Proof.
  intros c. unfold esc.
  destruct (N.eqb_spec c 38); [auto|]. destruct (N.eqb_spec c 60); [auto|]. destruct (N.eqb_spec c 62); [auto|]. destruct (N.eqb_spec c 34); [auto|].
  right. split; [cbn [In]; intuition congruence|reflexivity].
Qed.

Lemma esc_special : forall c, In c [38; 60; 62; 34] -> exists r, esc c = 38 :: r.
Proof. intros c H. cbn [In] in H. destruct H as [<-|[<-|[<-|[<-|[]]]]]; eexists; reflexivity. Qed.
Lemma starts_esc1 : forall c d x y, starts (esc c ++ x) (esc d ++ y) = (c =? d) && starts x y.
Proof.
  intros c d x y. destruct (esc_cases c) as [Hc|[Hc Ec]]; destruct (esc_cases d) as [Hd|[Hd Ed]].
  - destruct Hc as [-> | [-> | [-> | ->]]]; destruct Hd as [-> | [-> | [-> | ->]]]; reflexivity.
  - assert (Hc' : In c [38; 60; 62; 34]) by (cbn [In]; intuition congruence). destruct (esc_special c Hc') as (r & ->). rewrite Ed.
    cbn [app starts]. destruct (N.eqb_spec 38 d) as [<-|_]; [cbn [In] in Hd; tauto|]. destruct (N.eqb_spec c d) as [->|_]; [tauto|reflexivity].
  - assert (Hd' : In d [38; 60; 62; 34]) by (cbn [In]; intuition congruence). destruct (esc_special d Hd') as (r & ->). rewrite Ec.
    cbn [app starts]. destruct (N.eqb_spec c 38) as [->|_]; [cbn [In] in Hc; tauto|]. destruct (N.eqb_spec c d) as [->|_]; [tauto|reflexivity].
  - rewrite Ec, Ed. reflexivity.
Qed.

Lemma esc_cons : forall c, exists a r, esc c = a :: r /\ Forall (fun x => x <> 38) r.
Proof.
  intros c. destruct (esc_cases c) as [[-> | [-> | [-> | ->]]]|[Hc Ec]]; [| | | |exists c, []; split; [exact Ec|constructor]];
  (eexists _, _; split; [reflexivity|]; repeat constructor; discriminate).
Qed.

Lemma starts_esc : forall p s, starts (flat_map esc p) (flat_map esc s) = starts p s.
Proof.
  induction p as [|c p IH]; intros s; [destruct (flat_map esc s); reflexivity|].
  destruct s as [|d s]; cbn [flat_map].
  - destruct (esc_cons c) as (a & r & -> & _). reflexivity.
  - rewrite starts_esc1, IH. reflexivity.
Qed.

Lemma starts_app : forall p s, starts p s = true -> exists r, s = p ++ r.
Proof.
  induction p as [|c p IH]; intros s E; [exists s; reflexivity|]. destruct s as [|d s]; [discriminate E|]. cbn [starts] in E.
  apply andb_true_iff in E. destruct E as [E1 E2]. apply N.eqb_eq in E1. subst d. destruct (IH s E2) as (r & ->). exists r. reflexivity.
Qed.

Lemma starts_self : forall p r, starts p (p ++ r) = true.
Proof. induction p as [|c p IH]; intros r; [reflexivity|]. cbn [starts app]. rewrite N.eqb_refl, IH. reflexivity. Qed.

Lemma restore_skip : forall a b, restore (length a) (a ++ b) = restore 0 b.
Proof. induction a as [|c a IH]; intros b; [reflexivity|]. exact (IH b). Qed.

Lemma restore_copy : forall a b, Forall (fun x => x <> 38) a -> restore 0 (a ++ b) = a ++ restore 0 b.
Proof.
  induction a as [|c a IH]; intros b H; [reflexivity|]. inversion H as [|? ? Hc Ha]; subst. cbn [app restore].
  assert (E : forall p, starts (38 :: p) (c :: a ++ b) = false).
  { intros p. cbn [starts]. destruct (N.eqb_spec 38 c) as [<-|]; [congruence|reflexivity]. }
  change (bytes "&lt;strong&gt;") with (38 :: bytes "lt;strong&gt;"). change (bytes "&lt;/strong&gt;") with (38 :: bytes "lt;/strong&gt;").
  rewrite !E, (IH b Ha). reflexivity.
Qed.

(** The last four replacements and the restoring in one pass. *)
Fixpoint tags (skip : nat) (s : list N) : list N :=
  match s with
  | [] => []
  | c :: s' =>
      match skip with
      | S skip => tags skip s'
      | O =>
          if starts (bytes "<strong>") s then bytes "<strong>" ++ tags 7 s'
          else if starts (bytes "</strong>") s then bytes "</strong>" ++ tags 8 s'
          else esc c ++ tags 0 s'
      end
  end.
Lemma tags_skip : forall a b, tags (length a) (a ++ b) = tags 0 b.
Proof. induction a as [|c a IH]; intros b; [reflexivity|]. exact (IH b). Qed.
Lemma tags_open : forall r, tags 0 (bytes "<strong>" ++ r) = bytes "<strong>" ++ tags 0 r.
Proof. intros r. reflexivity. Qed.
Lemma tags_close : forall r, tags 0 (bytes "</strong>" ++ r) = bytes "</strong>" ++ tags 0 r.
Proof. intros r. reflexivity. Qed.

Lemma restore_esc : forall n s, (length s <= n)%nat -> restore 0 (flat_map esc s) = tags 0 s.
Proof.
  induction n as [|n IH]; intros s Hn.
  - destruct s; [reflexivity|cbn [length] in Hn; lia].
  - destruct s as [|c s]; [reflexivity|]. cbn [length] in Hn.
    pose proof (starts_esc (bytes "<strong>") (c :: s)) as E1. pose proof (starts_esc (bytes "</strong>") (c :: s)) as E2.
    change (flat_map esc (bytes "<strong>")) with (bytes "&lt;strong&gt;") in E1. change (flat_map esc (bytes "</strong>")) with (bytes "&lt;/strong&gt;") in E2.
    destruct (starts (bytes "<strong>") (c :: s)) eqn:O1.
    + destruct (starts_app _ _ O1) as (r & Er). rewrite Er, tags_open, flat_map_app.
      rewrite <- (IH r); [reflexivity|]. apply (f_equal (@length N)) in Er. rewrite app_length in Er. cbn in Er. lia.
    + destruct (starts (bytes "</strong>") (c :: s)) eqn:O2.
      * destruct (starts_app _ _ O2) as (r & Er). rewrite Er, tags_close, flat_map_app.
        rewrite <- (IH r); [reflexivity|]. apply (f_equal (@length N)) in Er. rewrite app_length in Er. cbn in Er. lia.
      * cbn [tags]. rewrite O1, O2. rewrite <- (IH s) by lia. cbn [flat_map] in *.
        destruct (esc_cons c) as (a & r & Ea & Hr). rewrite Ea in *. cbn [app] in *. cbn [restore]. rewrite E1, E2.
        cbn [app]. f_equal. apply restore_copy. exact Hr.
Qed.

Lemma format_ok : forall re v cur html, cur <> [] -> format_result re v cur = Ok html ->
  exists ps, re (join_bar (js_split cur)) v = Ok ps /\ html = tags 0 (concat (map mark ps)).
Proof.
  intros re v cur html Hc E. unfold format_result in E. destruct cur as [|x cur]; [congruence|].
  destruct (re _ v) as [ps| | |]; try discriminate E. cbn [bind] in E. exists ps. split; [reflexivity|].
  injection E as <-. rewrite escapes. apply (restore_esc _ _ (le_n _)).
Qed.
Lemma ok_format : forall re v cur ps, cur <> [] -> re (join_bar (js_split cur)) v = Ok ps ->
  format_result re v cur = Ok (tags 0 (concat (map mark ps))).
Proof.
  intros re v cur ps Hc E. unfold format_result. destruct cur as [|x cur]; [congruence|]. rewrite E. cbn [bind].
  rewrite escapes. f_equal. apply (restore_esc _ _ (le_n _)).
Qed.

(** No other markup. *)
Lemma esc_bold : forall c h, only_bold h -> only_bold (esc c ++ h).
Proof.
  intros c h H. destruct (esc_cases c) as [[-> | [-> | [-> | ->]]]|[Hc ->]].
  - exact (ob_entity _ _ _ e_amp H).
  - exact (ob_entity _ _ _ e_lt H).
  - exact (ob_entity _ _ _ e_gt H).
  - exact (ob_entity _ _ _ e_quot H).
  - exact (ob_char c h Hc H).
Qed.
Lemma tags_bold : forall s k, only_bold (tags k s).
Proof.
  induction s as [|c s IH]; intros k; [constructor|]. cbn [tags]. destruct k as [|k]; [|apply IH].
  destruct (starts _ _); [apply ob_open; apply IH|]. destruct (starts _ _); [apply ob_close; apply IH|apply esc_bold; apply IH].
Qed.

(** Characters and tags, before and after. *)
Inductive item := Ch (c : N) | Op | Cl.
Definition raw (i : item) : list N := match i with Ch c => [c] | Op => bytes "<strong>" | Cl => bytes "</strong>" end.
Definition cooked (i : item) : list N := match i with Ch c => esc c | Op => bytes "<strong>" | Cl => bytes "</strong>" end.
Definition chars_of (i : item) : list N := match i with Ch c => [c] | _ => [] end.
Definition items (p : piece) : list item := match p with Kept s => map Ch s | Hit s => Op :: map Ch s ++ [Cl] end.

Lemma raw_chars : forall s, flat_map raw (map Ch s) = s.
Proof. induction s as [|c s IH]; [reflexivity|]. cbn [map flat_map raw app]. rewrite IH. reflexivity. Qed.
Lemma chars_chars : forall s, flat_map chars_of (map Ch s) = s.
Proof. induction s as [|c s IH]; [reflexivity|]. cbn [map flat_map chars_of app]. rewrite IH. reflexivity. Qed.
Lemma raw_items : forall ps, flat_map raw (flat_map items ps) = concat (map mark ps).
Proof.
  induction ps as [|p ps IH]; [reflexivity|]. cbn [flat_map map concat]. rewrite flat_map_app, IH. f_equal.
  destruct p as [s|s]; cbn [items mark]; [apply raw_chars|]. cbn [flat_map raw]. rewrite flat_map_app, raw_chars. reflexivity.
Qed.
Lemma chars_items : forall ps, flat_map chars_of (flat_map items ps) = concat (map piece_text ps).
Proof.
  induction ps as [|p ps IH]; [reflexivity|]. cbn [flat_map map concat]. rewrite flat_map_app, IH. f_equal.
  destruct p as [s|s]; cbn [items piece_text]; [apply chars_chars|]. cbn [flat_map chars_of app]. rewrite flat_map_app, chars_chars. apply app_nil_r.
Qed.

Lemma starts_items : forall p l, Forall (fun c => c <> 60) p -> starts p (flat_map raw l) = true -> exists l', l = map Ch p ++ l'.
Proof.
  induction p as [|c p IH]; intros l Hp E; [exists l; reflexivity|]. inversion Hp as [|? ? Hc Hp']; subst.
  destruct l as [|i l]; [discriminate E|]. destruct i as [d| |]; cbn [flat_map raw app] in E.
  - cbn [starts] in E. apply andb_true_iff in E. destruct E as [E1 E2]. apply N.eqb_eq in E1. subst d.
    destruct (IH l Hp' E2) as (l' & ->). exists l'. reflexivity.
  - exfalso. apply andb_true_iff in E. destruct E as [E1 _]. apply N.eqb_eq in E1. exact (Hc E1).
  - exfalso. apply andb_true_iff in E. destruct E as [E1 _]. apply N.eqb_eq in E1. exact (Hc E1).
Qed.

Lemma factor_tail : forall p c s, ~ factor p (c :: s) -> ~ factor p s.
Proof. intros p c s H (a & b & ->). apply H. exists (c :: a), b. reflexivity. Qed.

Lemma tags_items : forall l, no_own_tag (flat_map chars_of l) -> tags 0 (flat_map raw l) = flat_map cooked l.
Proof.
  induction l as [|i l IH]; intros [H1 H2]; [reflexivity|]. destruct i as [c| |].
  - cbn [flat_map raw cooked chars_of app] in *.
    assert (H : no_own_tag (flat_map chars_of l)) by (split; eapply factor_tail; eassumption).
    assert (Hf : forall p, Forall (fun c => c <> 60) p -> ~ factor (60 :: p) (c :: flat_map chars_of l) ->
                 starts (60 :: p) (c :: flat_map raw l) = false).
    { intros p Hp Hn. destruct (starts (60 :: p) (c :: flat_map raw l)) eqn:E; [|reflexivity]. exfalso. cbn [starts] in E.
      apply andb_true_iff in E. destruct E as [E1 E2]. apply N.eqb_eq in E1. subst c. destruct (starts_items p l Hp E2) as (l' & ->).
      apply Hn. exists [], (flat_map chars_of l'). rewrite flat_map_app, chars_chars. reflexivity. }
    cbn [tags].
    change (bytes "<strong>") with (60 :: bytes "strong>") in *. change (bytes "</strong>") with (60 :: bytes "/strong>") in *.
    rewrite (Hf (bytes "strong>")) by (exact H1 || (repeat constructor; discriminate)).
    rewrite (Hf (bytes "/strong>")) by (exact H2 || (repeat constructor; discriminate)).
    rewrite (IH H). reflexivity.
  - cbn [flat_map raw cooked]. rewrite tags_open, IH; [reflexivity|split; assumption].
  - cbn [flat_map raw cooked]. rewrite tags_close, IH; [reflexivity|split; assumption].
Qed.

(** What is shown. *)
Definition annot (p : piece) : list (N * bool) := match p with Kept s => map (fun c => (c, false)) s | Hit s => map (fun c => (c, true)) s end.
Lemma annot_text : forall ps, map fst (flat_map annot ps) = concat (map piece_text ps).
Proof.
  induction ps as [|p ps IH]; [reflexivity|]. cbn [flat_map map concat]. rewrite map_app, IH. f_equal.
  destruct p as [s|s]; cbn [annot piece_text]; rewrite map_map; apply map_id.
Qed.
Lemma esc_shows : forall c b h t, shows b h t -> shows b (esc c ++ h) ((c, b) :: t).
Proof.
  intros c b h t H. destruct (esc_cases c) as [[-> | [-> | [-> | ->]]]|[Hc ->]].
  - exact (sh_entity b _ _ _ _ e_amp H).
  - exact (sh_entity b _ _ _ _ e_lt H).
  - exact (sh_entity b _ _ _ _ e_gt H).
  - exact (sh_entity b _ _ _ _ e_quot H).
  - exact (sh_char b c h t Hc H).
Qed.
Lemma chars_shows : forall s b h t, shows b h t -> shows b (flat_map cooked (map Ch s) ++ h) (map (fun c => (c, b)) s ++ t).
Proof.
  induction s as [|c s IH]; intros b h t H; [exact H|]. cbn [map flat_map cooked app]. rewrite <- app_assoc. apply esc_shows. apply IH. exact H.
Qed.
Lemma items_show : forall ps, shows false (flat_map cooked (flat_map items ps)) (flat_map annot ps).
Proof.
  induction ps as [|p ps IH]; [constructor|]. cbn [flat_map]. rewrite flat_map_app. destruct p as [s|s]; cbn [items annot].
  - apply chars_shows. exact IH.
  - cbn [flat_map cooked]. rewrite <- app_assoc. apply sh_open. rewrite flat_map_app, <- app_assoc. apply chars_shows.
    cbn [flat_map cooked]. rewrite app_nil_r. apply sh_close. exact IH.
Qed.
Lemma pieces_show : forall ps, no_own_tag (concat (map piece_text ps)) -> shows false (tags 0 (concat (map mark ps))) (flat_map annot ps).
Proof. intros ps H. rewrite <- raw_items, tags_items; [apply items_show|rewrite chars_items; exact H]. Qed.

(** The keywords. *)
Section Same.
  Variable same : N -> N -> bool.
  Lemma word_at_begins : forall w s, word_at same w s = true <-> begins same w s.
  Proof.
    induction w as [|x w IH]; intros s.
    - split; [intros _; exists [], s; split; [reflexivity|constructor]|intros _; destruct s; reflexivity].
    - destruct s as [|y s].
      + split; [discriminate|]. intros (a & b & E & H). inversion H; subst. discriminate E.
      + cbn [word_at]. rewrite andb_true_iff, IH. split.
        * intros [E (a & b & -> & H)]. exists (y :: a), b. split; [reflexivity|constructor; assumption].
        * intros (a & b & E & H). inversion H as [|? y' ? a' Hy Ha]; subst. injection E as -> ->. split; [exact Hy|]. exists a', b. split; [reflexivity|exact Ha].
  Qed.
  Lemma begins_firstn : forall w s, begins same w s -> Forall2 (fun x y => same x y = true) w (firstn (length w) s) /\ (length w <= length s)%nat.
  Proof.
    intros w s (a & b & -> & H). assert (E : length w = length a) by (clear - H; induction H; [reflexivity|cbn [length]; congruence]).
    split; [|rewrite app_length; lia]. rewrite E, firstn_app, Nat.sub_diag, firstn_all. cbn [firstn]. rewrite app_nil_r. exact H.
  Qed.

  Lemma match_some : forall ws s n, match_at same ws s = Some n ->
    exists w, In w ws /\ length w = n /\ Forall2 (fun x y => same x y = true) w (firstn n s) /\ (n <= length s)%nat.
  Proof.
    intros ws s n E. unfold match_at in E. destruct (find _ ws) as [w|] eqn:F; [|discriminate E]. injection E as <-.
    apply find_some in F. destruct F as [Hi Hw]. apply word_at_begins in Hw. destruct (begins_firstn w s Hw) as [A B]. exists w. auto.
  Qed.
  Lemma match_none : forall ws s, match_at same ws s = None -> forall w, In w ws -> ~ begins same w s.
  Proof.
    intros ws s E w Hi Hw. unfold match_at in E. destruct (find _ ws) as [w'|] eqn:F; [discriminate E|].
    apply word_at_begins in Hw. pose proof (find_none _ _ F w Hi) as Hn. cbv beta in Hn. congruence.
  Qed.

  Lemma hl_hit : forall ws w s t, In w ws -> Forall2 (fun x y => same x y = true) w s -> highlighted same ws t ->
    highlighted same ws (map (fun c => (c, true)) s ++ t).
  Proof.
    intros ws w s t Hi Hw [H1 H2]. assert (Hs : Forall (fun r : N * bool => snd r = true) (map (fun c => (c, true)) s)).
    { apply Forall_forall. intros r Hr. apply in_map_iff in Hr. destruct Hr as (c & <- & _). reflexivity. }
    split; intros a c b E; apply app_eq_app in E; destruct E as (l & [[E1 E2]|[E1 E2]]).
    - destruct l as [|r l].
      + cbn [app] in E2. exact (H1 [] c b (eq_sym E2)).
      + injection E2 as <- ->. exfalso. rewrite E1 in Hs. apply Forall_app in Hs. destruct Hs as [_ Hs]. inversion Hs as [|? ? Hc ?]; subst. discriminate Hc.
    - exact (H1 l c b E2).
    - destruct l as [|r l].
      + cbn [app] in E2. rewrite app_nil_r in E1. destruct (H2 [] c b (eq_sym E2)) as (w' & a1 & a2 & b1 & b2 & A1 & A2 & A3 & A4 & A5).
        exists w', (a ++ a1), a2, b1, b2. split; [exact A1|]. split; [|repeat split; assumption]. rewrite <- app_assoc, <- A2. symmetry. apply app_nil_r.
      + injection E2 as <- ->. exists w, [], a, l, t. split; [exact Hi|]. split; [reflexivity|]. split; [reflexivity|].
        rewrite <- E1. split; [|exact Hs]. rewrite map_map, map_id. exact Hw.
    - destruct (H2 l c b E2) as (w' & a1 & a2 & b1 & b2 & A1 & A2 & A3 & A4 & A5).
      exists w', (map (fun c => (c, true)) s ++ a1), a2, b1, b2. split; [exact A1|]. split; [|repeat split; assumption].
      rewrite E1, A2. apply app_assoc.
  Qed.
  Lemma hl_kept : forall ws c t, (forall w, In w ws -> ~ begins same w (c :: map fst t)) -> highlighted same ws t -> highlighted same ws ((c, false) :: t).
  Proof.
    intros ws c t Hn [H1 H2]. split; intros a d b E.
    - destruct a as [|r a]; [injection E as <- <-; exact Hn|]. injection E as _ E. exact (H1 a d b E).
    - destruct a as [|r a]; [discriminate E|]. injection E as <- E. destruct (H2 a d b E) as (w' & a1 & a2 & b1 & b2 & A1 & A2 & A3 & A4 & A5).
      exists w', ((c, false) :: a1), a2, b1, b2. split; [exact A1|]. split; [rewrite A2; reflexivity|repeat split; assumption].
  Qed.

  Lemma cut_spec : forall ws fuel s, (length s < fuel)%nat -> Forall (fun w => w <> []) ws ->
    exists ps, cut_at same fuel ws s = Ok ps /\ concat (map piece_text ps) = s /\ highlighted same ws (flat_map annot ps).
  Proof.
    intros ws fuel. induction fuel as [|fuel IH]; intros s Hf Hw; [lia|]. cbn [cut_at]. destruct (match_at same ws s) as [n|] eqn:E.
    - destruct (match_some ws s n E) as (w & Hi & Hl & Hm & Hn). destruct n as [|n].
      { exfalso. rewrite Forall_forall in Hw. apply (Hw w Hi). destruct w; [reflexivity|discriminate Hl]. }
      destruct (IH (skipn (S n) s)) as (ps & E1 & E2 & E3); [rewrite skipn_length; lia|exact Hw|]. rewrite E1. cbn [bind].
      eexists. split; [reflexivity|]. cbn [map concat piece_text flat_map annot]. rewrite E2, firstn_skipn. split; [reflexivity|].
      exact (hl_hit ws w _ _ Hi Hm E3).
    - destruct s as [|c s].
      + exists []. split; [reflexivity|]. split; [reflexivity|]. split; intros a c b Ea; destruct a; discriminate Ea.
      + cbn [length] in Hf. destruct (IH s) as (ps & E1 & E2 & E3); [lia|exact Hw|]. rewrite E1. cbn [bind]. eexists. split; [reflexivity|].
        cbn [map concat piece_text flat_map annot app]. split; [rewrite E2; reflexivity|]. apply hl_kept; [|exact E3].
        rewrite annot_text, E2. exact (match_none ws _ E).
  Qed.

  Lemma cut_blank : forall fuel s, (length s < fuel)%nat ->
    exists ps, cut_at same fuel [[]] s = Ok ps /\ concat (map piece_text ps) = s /\ flat_map annot ps = map (fun c => (c, false)) s.
  Proof.
    induction fuel as [|fuel IH]; intros s Hf; [lia|]. cbn [cut_at]. change (match_at same [[]] s) with (Some 0%nat).
    destruct s as [|c s]; [exists [Hit []]; repeat split|].
    cbn [length] in Hf. destruct (IH s) as (ps & E1 & E2 & E3); [lia|]. rewrite E1. cbn [bind]. eexists. split; [reflexivity|].
    cbn [map concat piece_text flat_map annot app]. rewrite E2, E3. split; reflexivity.
  Qed.

  Lemma cut_text : forall ws fuel s ps, cut_at same fuel ws s = Ok ps -> concat (map piece_text ps) = s.
  Proof.
    intros ws fuel. induction fuel as [|fuel IH]; intros s ps E; [discriminate E|]. cbn [cut_at] in E. destruct (match_at same ws s) as [[|n]|].
    - destruct s as [|c s]; [injection E as <-; reflexivity|]. destruct (cut_at same fuel ws s) as [ps'| | |] eqn:Ec; try discriminate E.
      injection E as <-. cbn [map concat piece_text app]. rewrite (IH s ps' Ec). reflexivity.
    - destruct (cut_at same fuel ws _) as [ps'| | |] eqn:Ec; try discriminate E. injection E as <-. cbn [map concat piece_text].
      rewrite (IH _ ps' Ec). exact (firstn_skipn (S n) s).
    - destruct s as [|c s]; [injection E as <-; reflexivity|]. destruct (cut_at same fuel ws s) as [ps'| | |] eqn:Ec; try discriminate E.
      injection E as <-. cbn [map concat piece_text app]. rewrite (IH s ps' Ec). reflexivity.
  Qed.
End Same.

(** The words. *)
Lemma white_space : forall c, js_space c = white c.
Proof.
  intros c. unfold js_space, white. cbn [existsb]. apply Bool.eq_true_iff_eq. rewrite !orb_true_iff, !andb_true_iff, !N.leb_le, !N.eqb_eq. lia.
Qed.
Lemma joined : forall ws, ws <> [] -> alternatives ws (join_bar ws).
Proof.
  induction ws as [|w ws IH]; intros H; [congruence|]. destruct ws as [|w' ws]; [constructor|].
  change (join_bar (w :: w' :: ws)) with (w ++ 124 :: join_bar (w' :: ws)). constructor. apply IH. discriminate.
Qed.
Lemma words_skip : forall s r, Forall (fun c => white c = true) s -> js_words (s ++ r) [] = js_words r [].
Proof. induction s as [|c s IH]; intros r H; [reflexivity|]. inversion H as [|? ? Hc Hs]; subst. cbn [app js_words]. rewrite white_space, Hc. exact (IH r Hs). Qed.
Lemma words_read : forall w r v, Forall (fun c => white c = false) w -> js_words (w ++ r) v = js_words r (rev w ++ v).
Proof.
  induction w as [|c w IH]; intros r v H; [reflexivity|]. inversion H as [|? ? Hc Hw]; subst. cbn [app js_words]. rewrite white_space, Hc, (IH r _ Hw).
  cbn [rev]. rewrite <- app_assoc. reflexivity.
Qed.
Lemma rev_ne : forall (w : list N), w <> [] -> exists x v, rev w = x :: v.
Proof. intros w H. destruct (rev w) as [|x v] eqn:E; [exfalso; apply H; rewrite <- (rev_involutive w), E; reflexivity|exists x, v; reflexivity]. Qed.

Lemma spelled_words : forall s ws, spelled white s ws -> js_words s [] = ws.
Proof.
  intros s ws H. induction H as [s Hs|s w Hs Hn Hw|s w c r ws Hs Hn Hw Hc Hr IH].
  - rewrite <- (app_nil_r s), (words_skip s [] Hs). reflexivity.
  - rewrite (words_skip s _ Hs), <- (app_nil_r w), (words_read w [] [] Hw), !app_nil_r. destruct (rev_ne w Hn) as (x & v & E).
    cbn [js_words]. rewrite E, <- E, rev_involutive. reflexivity.
  - rewrite (words_skip s _ Hs), (words_read w _ [] Hw), app_nil_r. destruct (rev_ne w Hn) as (x & v & E).
    cbn [js_words]. rewrite white_space, Hc, E, <- E, rev_involutive, IH. reflexivity.
Qed.

(** Every text has words. *)
Lemma spelled_exists : forall s, (exists ws, spelled white s ws) /\
  (forall w, w <> [] -> Forall (fun c => white c = false) w -> exists ws, spelled white (w ++ s) ws).
Proof.
  induction s as [|c s [IH1 IH2]].
  - split; [exists []; constructor; constructor|]. intros w Hn Hw. exists [w]. rewrite app_nil_r.
    exact (sp_last _ [] w (Forall_nil _) Hn Hw).
  - destruct (white c) eqn:Ec.
    + split.
      * destruct IH1 as (ws & H). exists ws. inversion H as [s0 Hs|s0 w Hs Hn Hw|s0 w d r ws0 Hs Hn Hw Hd Hr]; subst.
        -- constructor. constructor; assumption.
        -- exact (sp_last _ (c :: s0) w (Forall_cons _ Ec Hs) Hn Hw).
        -- exact (sp_word _ (c :: s0) w d r ws0 (Forall_cons _ Ec Hs) Hn Hw Hd Hr).
      * intros w Hn Hw. destruct IH1 as (ws & H). exists (w :: ws). exact (sp_word _ [] w c s ws (Forall_nil _) Hn Hw Ec H).
    + split.
      * apply (IH2 [c]); [discriminate|constructor; [exact Ec|constructor]].
      * intros w Hn Hw. destruct (IH2 (w ++ [c])) as (ws & H); [destruct w; discriminate|apply Forall_app; split; [exact Hw|repeat constructor; exact Ec]|].
        rewrite <- app_assoc in H. exists ws. exact H.
Qed.

Lemma spelled_ne : forall s ws, spelled white s ws -> Forall (fun w => w <> []) ws.
Proof. intros s ws H. induction H; repeat constructor; assumption. Qed.

(** The theorems. *)
Lemma page_bold : forall re v cur html, cur <> [] -> format_result re v cur = Ok html -> only_bold html.
Proof. intros re v cur html Hc E. destruct (format_ok re v cur html Hc E) as (ps & _ & ->). apply tags_bold. Qed.

Lemma page_text : forall same re v cur html, regexp_ok same re -> cur <> [] -> no_own_tag v -> format_result re v cur = Ok html ->
  exists t, shows false html t /\ map fst t = v.
Proof.
  intros same re v cur html [Hre _] Hc Hv E. destruct (format_ok re v cur html Hc E) as (ps & Ep & ->). pose proof (Hre _ _ _ Ep) as Et.
  exists (flat_map annot ps). split; [apply pieces_show; rewrite Et; exact Hv|rewrite annot_text; exact Et].
Qed.

Lemma page_words : forall same re v cur ws, regexp_ok same re -> spelled white cur ws -> ws <> [] -> Forall ordinary ws -> no_own_tag v ->
  exists html t, format_result re v cur = Ok html /\ shows false html t /\ map fst t = v /\ highlighted same ws t.
Proof.
  intros same re v cur ws [_ Hre] Hw Hn Hp Hv. assert (Hc : cur <> []).
  { intros ->. apply spelled_words in Hw. cbn in Hw. congruence. }
  destruct (cut_spec same ws (S (length v)) v) as (ps & E1 & E2 & E3); [lia|exact (spelled_ne cur ws Hw)|].
  exists (tags 0 (concat (map mark ps))), (flat_map annot ps). split.
  - apply ok_format; [exact Hc|]. unfold js_split. rewrite (spelled_words cur ws Hw). destruct ws as [|w ws]; [congruence|].
    rewrite (Hre (w :: ws) _ v (joined _ Hn) Hp). exact E1.
  - split; [apply pieces_show; rewrite E2; exact Hv|]. split; [rewrite annot_text; exact E2|exact E3].
Qed.

Lemma page_blank : forall same re v cur, regexp_ok same re -> cur <> [] -> Forall (fun c => white c = true) cur -> no_own_tag v ->
  exists html, format_result re v cur = Ok html /\ shows false html (map (fun c => (c, false)) v).
Proof.
  intros same re v cur [_ Hre] Hc Hs Hv. destruct (cut_blank same (S (length v)) v) as (ps & E1 & E2 & E3); [lia|].
  exists (tags 0 (concat (map mark ps))). split.
  - apply ok_format; [exact Hc|]. unfold js_split. rewrite (spelled_words cur [] (sp_none _ cur Hs)).
    rewrite (Hre [[]] _ v (joined [[]] ltac:(discriminate))); [exact E1|repeat constructor].
  - rewrite <- E3. apply pieces_show. rewrite E2. exact Hv.
Qed.

(** HTML shows one thing only. *)
Lemma entity_head : forall e c, entity e c -> exists r, e = 38 :: r.
Proof. intros e c H. destruct H; eexists; reflexivity. Qed.
Lemma entity_det : forall e c e' c' h h', entity e c -> entity e' c' -> e ++ h = e' ++ h' -> c = c' /\ h = h'.
Proof. intros e c e' c' h h' H H' E. destruct H; destruct H'; cbn in E; try discriminate E; injection E as E; auto. Qed.
Lemma shows_det : forall b h t, shows b h t -> forall b' h' t', shows b' h' t' -> b = b' -> h = h' -> t = t'.
Proof.
  intros b h t H. induction H as [|h t H IH|h t H IH|b e c h t He H IH|b c h t Hc H IH]; intros b' h' t' H';
    destruct H' as [|k u K|k u K|b' e' c' k u Ke K|b' c' k u Kc K]; intros Eb E; try discriminate Eb; try reflexivity.
  all: try (destruct (entity_head _ _ He) as (r & Er)); try (destruct (entity_head _ _ Ke) as (r' & Er')).
  all: try (cbn in E; discriminate E).
  all: try (rewrite ?Er, ?Er' in E; cbn in E; discriminate E).
  all: try (apply app_inv_head in E; exact (IH _ _ _ K eq_refl E)).
  all: try (exfalso; rewrite ?Er, ?Er' in E; cbn in E; injection E as Ec _; (apply Kc || apply Hc); rewrite ?Ec, <- ?Ec; cbn [In]; tauto).
  - subst b'. destruct (entity_det _ _ _ _ _ _ He Ke E) as [<- E']. rewrite (IH _ _ _ K eq_refl E'). reflexivity.
  - subst b'. injection E as <- E. rewrite (IH _ _ _ K eq_refl E). reflexivity.
Qed.
