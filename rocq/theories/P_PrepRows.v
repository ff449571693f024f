(** Proofs: what the preprocessing scripts compute from the rows of the input. *)
From Coq Require Import Sorted Permutation.
From Verif Require Import Base S_Python S_Order P_Order S_Json S_Text S_Iter S_Trie S_Collection S_Prep M_Prep P_PrepText P_PrepDict P_Levels.
Local Open Scope nat_scope.
Section Python.
Context {py : python}.

(** A row: the numeral, its value, the words. *)
Definition trow : Type := list N * (nat * list (list N)).
Definition columns_of (r : trow) : list (list N) := fst r :: snd (snd r).
Definition row_ok (V : list (list N)) (r : trow) : Prop :=
  numeral (fst r) (N.of_nat (fst (snd r))) /\ Forall (fun w => In w V) (snd (snd r)).

Section Rows.
Variable V : list (list N).
Definition ids_of (r : trow) : list N := map (id_of V) (snd (snd r)).
Definition mapped_row (r : trow) : list (list N) := fst r :: map str (ids_of r) ++ [str 0].

(** ** map_dataset.py *)
Lemma map_tokens_ok ts : Forall (fun w => In w V) ts -> map_tokens (numbered 1 V) ts = Ok (map (id_of V) ts, length (concat ts)).
Proof.
  induction 1 as [|w ts Hw Hts IH]; [reflexivity|]. cbn [map_tokens]. rewrite get_id by exact Hw. rewrite IH. cbn [bind map concat]. now rewrite app_length.
Qed.
Lemma map_lines_ok rows : forall ls longest B, map columns ls = map columns_of rows -> Forall (row_ok V) rows ->
  longest <= B -> Forall (fun r : trow => length (concat (snd (snd r))) <= B) rows ->
  exists longest', longest' <= B /\ longest' = Nat.max longest (fold_right Nat.max 0 (map (fun r : trow => length (concat (snd (snd r)))) rows)) /\ map_lines (numbered 1 V) ls longest = Ok (flat_map (fun r => join_space (mapped_row r) ++ NL) rows, longest').
Proof.
  induction rows as [|r rows IH]; intros ls longest B E Hr Hl HB.
  - destruct ls; [|discriminate]. exists longest. split; [exact Hl|]. split; [cbn; lia|reflexivity].
  - destruct ls as [|l ls]; [discriminate|]. cbn [map] in E. injection E as El E. inversion Hr as [|? ? (Hn & Hw) Hr']; subst. inversion HB as [|? ? Hb HB']; subst.
    cbn [map_lines]. rewrite El. unfold columns_of at 1. rewrite map_tokens_ok by exact Hw. cbn [bind].
    set (lg := if longest <? length (concat (snd (snd r))) then length (concat (snd (snd r))) else longest).
    destruct (IH ls lg B E Hr') as (longest' & Hl' & Hx & E'); [unfold lg; destruct (longest <? _); lia|exact HB'|].
    exists longest'. split; [exact Hl'|]. split; [rewrite Hx; cbn [map fold_right]; unfold lg; destruct (Nat.ltb_spec longest (length (concat (snd (snd r))))); lia|]. rewrite E'. cbn [bind]. cbn [flat_map]. rewrite <- app_assoc. reflexivity.
Qed.
Lemma mapped_printable r : row_ok V r -> Forall printable (mapped_row r).
Proof.
  intros (Hn & _). constructor; [exact (numeral_printable _ _ Hn)|]. apply Forall_app. split; [|constructor; [exact (numeral_printable _ _ (str_numeral 0))|constructor]].
  apply Forall_forall. intros w Hw. apply in_map_iff in Hw as (x & <- & _). exact (numeral_printable _ _ (str_numeral x)).
Qed.
Lemma mapped_read rows : Forall (row_ok V) rows -> map columns (read_lines (flat_map (fun r => join_space (mapped_row r) ++ NL) rows)) = map mapped_row rows.
Proof.
  intros H. replace (flat_map (fun r => join_space (mapped_row r) ++ NL) rows) with (flat_map (fun l => l ++ NL) (map (fun r => join_space (mapped_row r)) rows)).
  - rewrite read_written.
    + rewrite !map_map. apply map_ext_in. intros r Hr. apply columns_written. apply mapped_printable. rewrite Forall_forall in H. now apply H.
    + apply Forall_forall. intros l Hl. apply in_map_iff in Hl as (r & <- & Hr). apply join_eol. eapply Forall_impl; [exact printable_eol|]. apply mapped_printable. rewrite Forall_forall in H. now apply H.
  - clear H. induction rows as [|r rows IH]; [reflexivity|]. cbn [map flat_map]. now rewrite IH.
Qed.

(** ** build_stats.py *)
Lemma ndict_get_none {W} (d : list (nat * W)) k : ~ In k (map fst d) -> dict_get Nat.eqb d k = None.
Proof. induction d as [|(k', v) d IH]; intros H; [reflexivity|]. cbn [dict_get map fst In] in *. destruct (Nat.eqb_spec k k'); [subst; tauto|]. apply IH. tauto. Qed.
Lemma ndict_get_some {W} (d : list (nat * W)) k : In k (map fst d) -> exists v, dict_get Nat.eqb d k = Some v /\ In (k, v) d.
Proof.
  induction d as [|(k', v) d IH]; intros H; [destruct H|]. cbn [dict_get map fst In] in *. destruct (Nat.eqb_spec k k') as [->|Hn]; [eauto|].
  destruct H as [H|H]; [congruence|]. destruct (IH H) as (v' & E & Hi). eauto.
Qed.
Lemma ndict_set_new {W} (d : list (nat * W)) k v : ~ In k (map fst d) -> dict_set Nat.eqb d k v = d ++ [(k, v)].
Proof. induction d as [|(k', v') d IH]; intros H; [reflexivity|]. cbn [dict_set map fst In] in *. destruct (Nat.eqb_spec k k') as [->|]; [tauto|]. rewrite IH by tauto. reflexivity. Qed.
Lemma ndict_set_old {W} (d : list (nat * W)) k v : In k (map fst d) -> map fst (dict_set Nat.eqb d k v) = map fst d.
Proof. induction d as [|(k', v') d IH]; intros H; [destruct H|]. cbn [dict_set map fst In] in *. destruct (Nat.eqb_spec k k') as [->|]; [reflexivity|]. cbn [map fst]. f_equal. apply IH. destruct H; [congruence|assumption]. Qed.
Lemma ndict_set_in {W} (d : list (nat * W)) k v kv : In kv (dict_set Nat.eqb d k v) -> kv = (k, v) \/ (In kv d /\ fst kv <> k) \/ (In kv d).
Proof.
  induction d as [|(k', v') d IH]; cbn [dict_set In]; [intuition|]. destruct (Nat.eqb_spec k k') as [->|Hn]; cbn [In]; [intuition|]. intros [H|H]; [auto|]. destruct (IH H) as [E|[(E & _)|E]]; auto.
Qed.

Definition level_ok (b level : nat) (kv : nat * nat) : Prop := snd kv <= b + (if fst kv <? level then 1 else 0).
Lemma count_levels_ok b n : forall d level m, map fst d = seq 0 m -> level <= m -> Forall (level_ok b level) d ->
  let d' := count_levels d level n in map fst d' = seq 0 (Nat.max m (level + n)) /\ Forall (level_ok b (level + n)) d'.
Proof.
  induction n as [|n IH]; intros d level m Hk Hl Hv; cbn [count_levels].
  - rewrite Nat.add_0_r. rewrite Nat.max_l by exact Hl. auto.
  - assert (Hmono : forall kv, level_ok b level kv -> level_ok b (level + 1) kv).
    { unfold level_ok. intros kv H. destruct (Nat.ltb_spec (fst kv) level), (Nat.ltb_spec (fst kv) (level + 1)); lia. }
    destruct (Nat.eq_dec level m) as [->|Hne].
    + assert (Hni : ~ In m (map fst d)) by (rewrite Hk, in_seq; lia). rewrite ndict_get_none by exact Hni. rewrite ndict_set_new by exact Hni.
      replace (m + S n) with (m + 1 + n) by lia. replace (Nat.max m (m + 1 + n)) with (Nat.max (m + 1) (m + 1 + n)) by lia. apply IH.
      * rewrite map_app, Hk. cbn [map fst]. rewrite Nat.add_1_r, seq_S. reflexivity.
      * lia.
      * apply Forall_app. split; [eapply Forall_impl; [|exact Hv]; exact Hmono|]. repeat constructor. unfold level_ok. cbn [fst snd]. destruct (Nat.ltb_spec m (m + 1)); lia.
    + assert (Hi : In level (map fst d)) by (rewrite Hk, in_seq; lia). destruct (ndict_get_some d level Hi) as (v & E & Hin). rewrite E.
      replace (level + S n) with (level + 1 + n) by lia. apply IH.
      * now rewrite ndict_set_old.
      * lia.
      * rewrite Forall_forall in Hv |- *. intros kv Hkv. apply ndict_set_in in Hkv as [->|[(Hkv & _)|Hkv]]; [|apply Hmono, Hv, Hkv..].
        specialize (Hv _ Hin). unfold level_ok in *. cbn [fst snd] in *. destruct (Nat.ltb_spec level level), (Nat.ltb_spec level (level + 1)); lia.
Qed.
Lemma common_le q : forall prev, common q prev <= length q /\ common q prev <= length prev.
Proof. induction q as [|a q IH]; intros [|b prev]; cbn [common length]; try lia. destruct (str_eqb a b); [|lia]. specialize (IH prev). lia. Qed.

Definition longest_row (rows : list trow) : nat := fold_right Nat.max 0 (map (fun r => length (snd (snd r)) + 1) rows).
Lemma stat_lines_ok rows : forall ls s m, map columns ls = map mapped_row rows -> Forall (row_ok V) rows ->
  map fst (sc_levels s) = seq 0 m -> Forall (fun kv => snd kv <= sc_lines s) (sc_levels s) -> length (sc_prev s) <= m ->
  exists s', stat_lines ls s = Ok s' /\ map fst (sc_levels s') = seq 0 (Nat.max m (longest_row rows)) /\ Forall (fun kv => snd kv <= sc_lines s') (sc_levels s') /\
    sc_lines s' = sc_lines s + length rows /\ sc_universe s' = N.max (sc_universe s) (N.of_nat (fold_right Nat.max 0 (map (fun r => fst (snd r)) rows))).
Proof.
  induction rows as [|r rows IH]; intros ls s m E Hr Hk Hv Hp.
  - destruct ls; [|discriminate]. exists s. cbn [stat_lines longest_row map fold_right length]. rewrite Nat.max_0_r, Nat.add_0_r. repeat split; try assumption. cbn. lia.
  - destruct ls as [|l ls]; [discriminate|]. cbn [map] in E. injection E as El E. inversion Hr as [|? ? Hrow Hr']; subst. cbn [stat_lines]. rewrite El. unfold mapped_row at 1.
    rewrite (int_numeral _ _ (proj1 Hrow)). cbn [bind]. set (q := map str (ids_of r) ++ [str 0]). set (level := common q (sc_prev s)).
    pose proof (common_le q (sc_prev s)) as Hc. fold level in Hc.
    assert (Hq : length q = length (snd (snd r)) + 1) by (unfold q, ids_of; rewrite app_length, !map_length; reflexivity).
    destruct (count_levels_ok (sc_lines s) (length q - level) (sc_levels s) level m Hk) as (Hk' & Hv'); [lia| |].
    { eapply Forall_impl; [|exact Hv]. intros kv H. unfold level_ok. cbn beta in H. destruct (fst kv <? level); lia. }
    replace (level + (length q - level)) with (length q) in * by lia.
    destruct (IH ls {| sc_levels := count_levels (sc_levels s) level (length q - level); sc_prev := q;
      sc_universe := if (sc_universe s <? N.of_nat (fst (snd r)))%N then N.of_nat (fst (snd r)) else sc_universe s; sc_lines := sc_lines s + 1 |} (Nat.max m (length q)) E Hr' Hk')
      as (s' & E' & K' & V' & L' & U').
    + cbn [sc_levels sc_lines]. eapply Forall_impl; [|exact Hv']. unfold level_ok. intros kv H. destruct (fst kv <? length q); lia.
    + cbn [sc_prev]. lia.
    + exists s'. split; [exact E'|]. cbn [sc_lines sc_universe] in *. split; [rewrite K'; f_equal; rewrite Hq; unfold longest_row; cbn [map fold_right]; lia|].
      split; [exact V'|]. split; [cbn [length]; lia|]. rewrite U'. cbn [map fold_right]. destruct (N.ltb_spec (sc_universe s) (N.of_nat (fst (snd r)))); lia.
Qed.

Definition row_ids (r : trow) : list N := ids_of r ++ [0%N].
Lemma stat_lines_levels rows : forall ls s s' v m prev, map columns ls = map mapped_row rows -> stat_lines ls s = Ok s' ->
  sc_levels s = table_of v m -> (forall i, m <= i -> v i = 0) -> sc_prev s = map str prev -> length prev <= m ->
  sc_levels s' = table_of (fun i => v i + news prev (map row_ids rows) i) (Nat.max m (longest_row rows)).
Proof.
  induction rows as [|r rows IH]; intros ls s s' v m prev E Es Hd Hv Hp Hm.
  - destruct ls; [|discriminate]. cbn [stat_lines] in Es. injection Es as <-. cbn [longest_row map fold_right news]. rewrite Nat.max_0_r, Hd. unfold table_of. apply map_ext. intros i. f_equal. lia.
  - destruct ls as [|l ls]; [discriminate|]. cbn [map] in E. injection E as El E. cbn [stat_lines] in Es. rewrite El in Es. unfold mapped_row at 1 in Es.
    destruct (int (fst r)) as [docid| | |]; cbn [bind] in Es; try discriminate.
    assert (Eq : map str (ids_of r) ++ [str 0] = map str (row_ids r)) by (unfold row_ids; now rewrite map_app). rewrite Eq, Hp, common_str, map_length in Es.
    pose proof (commonN_le (row_ids r) prev) as Hc. rewrite Hd, count_table in Es by (try lia; exact Hv).
    replace (commonN (row_ids r) prev + (length (row_ids r) - commonN (row_ids r) prev)) with (length (row_ids r)) in Es by lia.
    rewrite (IH _ _ s' _ _ (row_ids r) E Es eq_refl); cbn [sc_prev].
    + assert (Hq : length (row_ids r) = length (snd (snd r)) + 1) by (unfold row_ids, ids_of; rewrite app_length, map_length; reflexivity).
      replace (Nat.max (Nat.max m (length (row_ids r))) (longest_row rows)) with (Nat.max m (longest_row (r :: rows))) by (rewrite Hq; unfold longest_row; cbn [map fold_right]; lia).
      unfold table_of. apply map_ext. intros i. f_equal. cbn [map news]. lia.
    + intros i Hi. rewrite Hv by lia. destruct (Nat.leb_spec (commonN (row_ids r) prev) i), (Nat.ltb_spec i (length (row_ids r))); cbn [andb bit]; lia.
    + reflexivity.
    + lia.
Qed.

(** ** build_inverted_and_forward.py *)
Lemma nth_upd {A} (l : list A) i v j d : i < length l -> nth j (upd l i v) d = if i =? j then v else nth j l d.
Proof. intros H. rewrite upd_nth. destruct (Nat.ltb_spec i (length l)); [|lia]. now rewrite andb_true_r. Qed.
Lemma id_pos w : In w V -> 1 <= N.to_nat (id_of V w) <= length V.
Proof. intros H. unfold id_of. rewrite Nat2N.id. pose proof (index_lt V w H). lia. Qed.

Lemma post_tokens_ok doc ts : forall inv mapped, Forall (fun w => In w V) ts -> length inv = length V + 1 ->
  exists inv', post_tokens (numbered 1 V) doc ts inv mapped = Ok (inv', mapped ++ map (id_of V) ts) /\ length inv' = length inv /\
    forall x d, In d (nth x inv' []) <-> In d (nth x inv []) \/ (d = doc /\ In (N.of_nat x) (map (id_of V) ts) /\ ~ In (N.of_nat x) mapped).
Proof.
  induction ts as [|t ts IH]; intros inv mapped Ht Hl.
  - exists inv. cbn [post_tokens map]. rewrite app_nil_r. split; [reflexivity|]. split; [reflexivity|]. cbn [In]. tauto.
  - inversion Ht as [|? ? Hw Ht']; subst. cbn [post_tokens]. rewrite get_id by exact Hw. pose proof (id_pos t Hw) as Hid.
    assert (Hinv1 : exists inv1, (if existsb (N.eqb (id_of V t)) mapped then Ok inv
                     else match nth_error inv (N.to_nat (id_of V t)) with None => Exn | Some l => Ok (upd inv (N.to_nat (id_of V t)) (l ++ [doc])) end) = Ok inv1 /\
              length inv1 = length inv /\ forall x d, In d (nth x inv1 []) <-> In d (nth x inv []) \/ (d = doc /\ N.of_nat x = id_of V t /\ ~ In (N.of_nat x) mapped)).
    { destruct (existsb (N.eqb (id_of V t)) mapped) eqn:E.
      - apply existsb_exists in E as (y & Hy & E). apply N.eqb_eq in E. subst y. exists inv. split; [reflexivity|]. split; [reflexivity|]. intros x d. split; [tauto|].
        intros [H|(_ & E & H)]; [exact H|]. rewrite E in H. contradiction.
      - assert (Hni : ~ In (id_of V t) mapped). { intros H. assert (existsb (N.eqb (id_of V t)) mapped = true); [|congruence]. apply existsb_exists. exists (id_of V t). split; [exact H|apply N.eqb_refl]. }
        rewrite (nth_error_nth' inv [] (n := N.to_nat (id_of V t))) by lia. eexists. split; [reflexivity|]. split; [apply upd_length|]. intros x d.
        rewrite nth_upd by lia. destruct (Nat.eqb_spec (N.to_nat (id_of V t)) x) as [<-|Hne].
        + rewrite in_app_iff. cbn [In]. rewrite N2Nat.id. intuition.
        + split; [tauto|]. intros [H|(_ & E2 & _)]; [exact H|]. exfalso. apply Hne. rewrite <- E2. now rewrite Nat2N.id. }
    destruct Hinv1 as (inv1 & E1 & L1 & M1). rewrite E1. cbn [bind]. destruct (IH inv1 (mapped ++ [id_of V t]) Ht') as (inv' & E' & L' & M'); [lia|].
    exists inv'. split; [rewrite E', <- app_assoc; reflexivity|]. split; [lia|]. intros x d. rewrite M', M1. cbn [map In]. rewrite in_app_iff. cbn [In].
    destruct (N.eq_dec (N.of_nat x) (id_of V t)) as [E|E]; [rewrite E|]; intuition congruence.
Qed.

Definition doc_of (r : trow) : nat := fst (snd r).
Lemma post_lines_ok rows : forall ls inv fwd, map columns ls = map columns_of rows -> Forall (row_ok V) rows -> length inv = length V + 1 ->
  Forall (fun r => doc_of r < length fwd) rows -> NoDup (map doc_of rows) ->
  exists inv' fwd', post_lines (numbered 1 V) ls inv fwd = Ok (inv', fwd') /\ length inv' = length inv /\ length fwd' = length fwd /\
    (forall x d, In d (nth x inv' []) <-> In d (nth x inv []) \/ exists r, In r rows /\ d = N.of_nat (doc_of r) /\ In (N.of_nat x) (ids_of r)) /\
    (forall d, nth d fwd' [] = if existsb (Nat.eqb d) (map doc_of rows) then find_doc (map doc_of rows) (map ids_of rows) d else nth d fwd []).
Proof.
  induction rows as [|r rows IH]; intros ls inv fwd E Hr Hl Hd Hn.
  - destruct ls; [|discriminate]. exists inv, fwd. split; [reflexivity|]. split; [reflexivity|]. split; [reflexivity|]. split; [|reflexivity].
    intros x d. split; [tauto|]. intros [H|(r & [] & _)]; exact H.
  - destruct ls as [|l ls]; [discriminate|]. cbn [map] in E. injection E as El E. inversion Hr as [|? ? Hrow Hr']; subst. inversion Hd as [|? ? Hd0 Hd']; subst.
    cbn [map] in Hn. apply NoDup_cons_iff in Hn as (Hni & Hn). cbn [post_lines]. rewrite El. unfold columns_of at 1. rewrite (int_numeral _ _ (proj1 Hrow)). cbn [bind].
    destruct (post_tokens_ok (N.of_nat (fst (snd r))) (snd (snd r)) inv [] (proj2 Hrow) Hl) as (inv1 & E1 & L1 & M1). rewrite E1. cbn [bind app].
    rewrite Nat2N.id. unfold doc_of in Hd0. destruct (Nat.ltb_spec (fst (snd r)) (length fwd)) as [_|]; [|lia].
    destruct (IH ls inv1 (upd fwd (fst (snd r)) (map (id_of V) (snd (snd r)))) E Hr') as (inv' & fwd' & E' & L2 & L3 & M2 & F2); [lia| |exact Hn|].
    { eapply Forall_impl; [|exact Hd']. intros r' H. now rewrite upd_length. }
    exists inv', fwd'. split; [exact E'|]. split; [lia|]. rewrite upd_length in L3. split; [exact L3|]. split.
    + intros x d. rewrite M2, M1. cbn [In]. unfold ids_of at 2, doc_of at 2. split.
      * intros [[H|(-> & H & _)]|(r' & H & H2)]; [tauto| |right; exists r'; tauto]. right. exists r. cbn [In]. auto.
      * intros [H|(r' & [<-|H] & -> & H2)]; [tauto|left; right; split; [reflexivity|]; split; [exact H2|]; cbn [In]; tauto|right; exists r'; auto].
    + intros d. rewrite F2. cbn [map existsb find_doc]. rewrite nth_upd by exact Hd0. fold (doc_of r). destruct (Nat.eqb_spec (doc_of r) d) as [<-|Hne].
      * rewrite Nat.eqb_refl. cbn [orb]. destruct (existsb (Nat.eqb (doc_of r)) (map doc_of rows)) eqn:Ex; [|reflexivity].
        apply existsb_exists in Ex as (y & Hy & Ey). apply Nat.eqb_eq in Ey. subst y. contradiction.
      * destruct (Nat.eqb_spec d (doc_of r)) as [E0|_]; [congruence|]. cbn [orb]. reflexivity.
Qed.
End Rows.
End Python.
