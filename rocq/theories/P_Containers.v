(** Containers: value bounds of the trie's arrays, stored tries, unsorted lists, forward indexes. *)
From Coq Require Import Sorted.
From Verif Require Import Base S_Order M_Find S_Search P_Find S_Completions M_Trie S_Trie P_TrieBuild P_Trie P_TrieFinal.
From Verif Require Import M_Heap M_Iter S_Iter S_TopK S_Intersect M_Containers S_Containers M_Auto1.
Local Open Scope nat_scope.

Definition fits64 (l : list N) : Prop := Forall (fun x => (x < 18446744073709551616)%N) l.
Definition trie_fits (ta : trie_arrays) : Prop :=
  Forall fits64 (ta_nodes ta) /\ Forall (fun l => fits64 (map N.of_nat l)) (ta_ptrs ta ++ ta_left ta ++ ta_sizes ta).

Lemma gsums_bound M : forall gs prev k, (prev <= M * N.of_nat k)%N -> Forall (Forall (fun x => (x <= M)%N)) gs ->
  Forall (fun x => (x <= M * N.of_nat (k + length gs))%N) (concat (gsums prev gs)).
Proof.
  induction gs as [|g gs IH]; intros prev k Hp Hg; [constructor|]. inversion Hg as [|? ? Hg1 Hg2]; subst.
  cbn [gsums concat length].
  assert (Hm : Forall (fun x => (x <= M * N.of_nat (k + 1))%N) (map (fun v => (v + prev)%N) g)).
  { apply Forall_map. eapply Forall_impl; [|exact Hg1]. cbn. intros a Ha. rewrite Nat2N.inj_add, N.mul_add_distr_l. lia. }
  assert (Hlast : (last (map (fun v => (v + prev)%N) g) prev <= M * N.of_nat (k + 1))%N).
  { destruct (map (fun v => (v + prev)%N) g) as [|y m] eqn:E using rev_ind; [cbn; nia|].
    rewrite last_last. apply Forall_app in Hm. destruct Hm as [_ Hm]. now inversion Hm. }
  apply Forall_app. split.
  - eapply Forall_impl; [|exact Hm]. cbn. intros a Ha. nia.
  - replace (k + S (length gs)) with ((k + 1) + length gs) by lia. now apply IH.
Qed.

Lemma sums_bound m : forall begins ends sum, Forall (fun e => e <= m) ends ->
  Forall (fun x => x <= sum + m * length begins) (sums_of begins ends sum).
Proof.
  induction begins as [|b begins IH]; intros [|e ends] sum H; try constructor; inversion H; subst.
  - cbn [length]. nia.
  - eapply Forall_impl; [|apply (IH ends (e - b + sum)); assumption]. cbn [length]. intros a Ha. nia.
Qed.

Lemma sub_index_bound m : forall v k, Forall (fun x => x <= m) v -> Forall (fun x => x <= m) (sub_index k v).
Proof. induction v as [|x v IH]; intros k H; cbn; [constructor|]. inversion H; subst. constructor; [lia|]. now apply IH. Qed.

Section Bounds.
  Variable cs : list (list N).
  Hypothesis Hwf : wf_completions cs.
  Variable docs : list nat.
  Hypothesis Hn : (N.of_nat (length cs) < 4294967295)%N.

  Lemma nodes_bound i : Forall (fun x => (x <= 4294967294)%N) (nodes_of cs i).
  Proof.
    unfold nodes_of. apply Forall_map. apply Forall_forall. intros j Hj. unfold key, tc.
    destruct Hwf as (_ & _ & Hf). rewrite Forall_forall in Hf.
    assert (Hj2 : j < length cs).
    { unfold starts in Hj. pose proof (proj2 (sel_sorted (newn cs i) (length cs))) as H. rewrite Forall_forall in H. auto. }
    destruct (Hf _ (nth_In cs [] Hj2)) as [Hx _]. rewrite Forall_forall in Hx.
    destruct (Nat.lt_ge_cases i (length (terminated (nth j cs [])))) as [Hi|Hi].
    - pose proof (nth_In _ 0%N Hi) as Hin. unfold terminated in Hin at 2. apply in_app_or in Hin.
      destruct Hin as [Hin|[<-|[]]]; [apply Hx in Hin; lia|lia].
    - rewrite nth_overflow by assumption. lia.
  Qed.

  Lemma groups_count i : length (groups cs i) <= length cs + 1.
  Proof.
    destruct i as [|i]; [cbn; lia|]. destruct (groups_concat cs (S i)) as [_ [E _]].
    apply (f_equal (@length nat)) in E. rewrite group_pointers_length in E. unfold final_ptrs, ptrs_of in E.
    rewrite app_length in E. cbn [length] in E. rewrite map_length in E.
    change (length (sel (clo cs i) (length cs))) with (cnt (clo cs i) (length cs)) in E.
    pose proof (cnt_le (clo cs i) (length cs)). lia.
  Qed.

  Lemma fits_of_nat m l : (N.of_nat m < 18446744073709551616)%N -> Forall (fun x => x <= m) l -> fits64 (map N.of_nat l).
  Proof. intros Hm H. apply Forall_map. eapply Forall_impl; [|exact H]. cbn. lia. Qed.

  Lemma trie_fits_ok : trie_fits (the_arrays cs docs).
  Proof.
    unfold trie_fits, the_arrays. cbn [ta_nodes ta_ptrs ta_left ta_sizes]. split.
    - apply Forall_forall. intros v Hv. unfold tab in Hv. apply in_map_iff in Hv. destruct Hv as (i & <- & _).
      unfold vals. eapply Forall_impl.
      2:{ apply (gsums_bound 4294967294%N (groups cs i) 0%N 0); [lia|].
          apply Forall_concat. destruct (groups_concat cs i) as [-> _]. apply nodes_bound. }
      cbv beta. pose proof (groups_count i). intros a Ha. lia.
    - apply Forall_app. split; [|apply Forall_app; split]; apply Forall_forall; intros v Hv;
        unfold tab in Hv; apply in_map_iff in Hv; destruct Hv as (i & <- & _).
      + apply (fits_of_nat (length cs)); [lia|]. unfold final_ptrs, ptrs_of.
        assert (Hc : forall j, j <= length cs -> cnt (newn cs (i + 1)) j <= length cs) by (intros j Hj; pose proof (cnt_le (newn cs (i + 1)) j); lia).
        apply Forall_app. split; [constructor; [lia|]|constructor; [now apply Hc|constructor]].
        apply Forall_map. eapply Forall_impl; [|apply (proj2 (sel_sorted _ _))]. cbn. intros a Ha. apply Hc. lia.
      + apply (fits_of_nat (length cs)); [lia|]. apply sub_index_bound.
        eapply Forall_impl; [|apply (proj2 (sel_sorted _ _))]. cbn. lia.
      + apply (fits_of_nat (length cs * length cs)); [nia|].
        eapply Forall_impl; [|apply (sums_bound (length cs))].
        * cbn. intros a Ha. pose proof (cnt_le (newn cs i) (length cs)) as H.
          change (cnt (newn cs i) (length cs)) with (length (starts cs i)) in H. nia.
        * apply Forall_map. eapply Forall_impl; [|apply (proj2 (sel_sorted _ _))]. cbn. lia.
  Qed.
End Bounds.

Lemma sorted_N_of_nat l : StronglySorted le l -> StronglySorted N.le (map N.of_nat l).
Proof.
  induction 1 as [|x l H IH Hx]; [constructor|]. cbn. constructor; [exact IH|].
  apply Forall_map. eapply Forall_impl; [|exact Hx]. cbn. lia.
Qed.

Lemma map_res_ok {A B} (f : A -> res B) (P : A -> Prop) (Q : A -> B -> Prop) l :
  (forall x, P x -> exists y, f x = Ok y /\ Q x y) -> Forall P l -> exists ys, map_res f l = Ok ys /\ Forall2 Q l ys.
Proof.
  intros Hf. induction 1 as [|x l Hx H IH]; [exists []; split; [reflexivity|constructor]|].
  destruct (Hf x Hx) as (y & E & Hy). destruct IH as (ys & E2 & H2). exists (y :: ys). cbn. rewrite E. cbn. rewrite E2.
  split; [reflexivity|now constructor].
Qed.

Section Store.
  Variable K : containers.
  Hypothesis HK : containers_ok K.

  Lemma trie_store_ok ta : trie_monotone ta -> trie_fits ta -> exists t, trie_store K ta = Ok t /\ trie_holds ta t.
  Proof.
    intros [M1 M2] [F1 F2].
    assert (HN : forall ls, Forall monotone ls -> Forall fits64 ls ->
      exists qs, map_res (k_seq K) ls = Ok qs /\ Forall2 holds ls qs).
    { intros ls A B. apply (map_res_ok _ (fun l => monotone l /\ fits64 l)).
      - intros l [P Q]. now apply (ok_seq K HK).
      - rewrite Forall_forall in *. auto. }
    assert (Hn : forall ls, Forall (fun l => monotone (map N.of_nat l)) ls -> Forall (fun l => fits64 (map N.of_nat l)) ls ->
      exists qs, map_res (fun l => k_seq K (map N.of_nat l)) ls = Ok qs /\ Forall2 holds_nat ls qs).
    { intros ls A B. apply (map_res_ok _ (fun l => monotone (map N.of_nat l) /\ fits64 (map N.of_nat l))).
      - intros l [P Q]. now apply (ok_seq K HK).
      - rewrite Forall_forall in *. auto. }
    rewrite !Forall_app in M2, F2. destruct M2 as (M2 & M3 & M4), F2 as (F2 & F3 & F4).
    destruct (HN _ M1 F1) as (q1 & E1 & H1). destruct (Hn _ M2 F2) as (q2 & E2 & H2).
    destruct (Hn _ M3 F3) as (q3 & E3 & H3). destruct (Hn _ M4 F4) as (q4 & E4 & H4).
    unfold trie_store. rewrite E1. cbn [bind]. rewrite E2. cbn [bind]. rewrite E3. cbn [bind]. rewrite E4. cbn [bind].
    eexists. split; [reflexivity|]. repeat split; assumption.
  Qed.

  Lemma ceil_log2_S m : (1 <= m)%N -> ceil_log2 (m + 1) = N.to_nat (N.log2 m) + 1.
  Proof. intros H. unfold ceil_log2. destruct (N.ltb_spec 1 (m + 1)); [|lia]. now rewrite N.add_sub. Qed.

  Lemma width_ok m : (1 <= m < 4294967296)%N ->
    1 <= ceil_log2 (m + 1) <= 32 /\ forall x, (x <= m)%N -> (x mod 2 ^ N.of_nat (ceil_log2 (m + 1)) = x)%N.
  Proof.
    intros H. rewrite ceil_log2_S by lia. split.
    - assert (N.log2 m < 32)%N; [|lia]. apply N.log2_lt_pow2; [lia|]. exact (proj2 H).
    - intros x Hx. apply N.mod_small. replace (N.of_nat (N.to_nat (N.log2 m) + 1)) with (N.succ (N.log2 m)) by lia.
      eapply N.le_lt_trans; [exact Hx|]. apply N.log2_spec. lia.
  Qed.

  (** The value of a document that has no id, 2^32 - 1, is cut down to one that is not an id. *)
  Lemma width_none m : (1 <= m < 4294967296)%N -> (m <= 4294967295 mod 2 ^ N.of_nat (ceil_log2 (m + 1)))%N.
  Proof.
    intros H. destruct (width_ok m H) as [[_ W] _]. rewrite ceil_log2_S in * by lia.
    set (w := N.to_nat (N.log2 m) + 1) in *.
    assert (Hm : (m < 2 ^ N.of_nat w)%N).
    { unfold w. replace (N.of_nat (N.to_nat (N.log2 m) + 1)) with (N.succ (N.log2 m)) by lia. apply N.log2_spec. lia. }
    assert (E : (4294967296 = 2 ^ N.of_nat w * 2 ^ N.of_nat (32 - w))%N).
    { rewrite <- N.pow_add_r. replace (N.of_nat w + N.of_nat (32 - w))%N with 32%N by lia. reflexivity. }
    assert (Hp : (0 < 2 ^ N.of_nat (32 - w))%N) by (apply N.neq_0_lt_0, N.pow_nonzero; lia).
    assert (Hr : (4294967295 mod 2 ^ N.of_nat w = 2 ^ N.of_nat w - 1)%N); [|lia].
    symmetry. apply N.mod_unique with (q := (2 ^ N.of_nat (32 - w) - 1)%N); [lia|]. nia.
  Qed.

  Lemma max_ge l x : In x l -> (x <= fold_right N.max 0 l)%N.
  Proof. induction l as [|y l IH]; intros []; cbn; [subst; lia|]. specialize (IH H). lia. Qed.
  Lemma max_lt l b : (0 < b)%N -> Forall (fun x => (x < b)%N) l -> (fold_right N.max 0 l < b)%N.
  Proof. intros Hb. induction 1 as [|y l Hy H IH]; cbn; lia. Qed.

  Lemma vec_build_ok l : Forall (fun x => (x < 4294967295)%N) l -> (exists x, In x l /\ (0 < x)%N) ->
    exists acc, vec_build K l = Ok acc /\ forall i, i < length l -> acc i = Ok (nth i l 0%N).
  Proof.
    intros Hl (x & Hx & Hp). pose proof (max_ge l x Hx). pose proof (max_lt l 4294967295 eq_refl Hl).
    destruct (width_ok (fold_right N.max 0%N l)) as [W1 W2]; [lia|].
    destruct (ok_vec K HK _ l W1) as (acc & E & Ha).
    { eapply Forall_impl; [|exact Hl]. cbn. lia. }
    exists acc. split.
    - unfold vec_build. destruct l; [destruct Hx|]. exact E.
    - intros i Hi. rewrite Ha by assumption. f_equal. apply W2. apply max_ge. now apply nth_In.
  Qed.

  Definition ulist_holds (l : list nat) (ul : ulist) : Prop :=
    (forall i, i < length l -> ul_acc ul i = Ok (nth i l 0)) /\ ul_size ul = length l /\ rmq_ok l (ul_rmq ul).

  Lemma ulist_build_ok l : (N.of_nat (length l) < 1073741823)%N -> Forall (fun x => (N.of_nat x < 4294967295)%N) l -> (exists x, In x l /\ 0 < x) ->
    exists ul, ulist_build K l = Ok ul /\ ulist_holds l ul.
  Proof.
    intros Hlen Hl (x & Hx & Hp). destruct (ok_rmq K HK l) as (f & Ef & Hf); [intros ->; destruct Hx|assumption|].
    destruct (vec_build_ok (map N.of_nat l)) as (acc & Ea & Ha).
    - now apply Forall_map.
    - exists (N.of_nat x). split; [now apply in_map|lia].
    - unfold ulist_build. rewrite Ef. cbn [bind]. rewrite Ea. cbn [bind]. eexists. split; [reflexivity|].
      split; [|split; [reflexivity|exact Hf]]. intros i Hi. cbn [ul_acc]. unfold vec_nat.
      rewrite Ha by now rewrite map_length. cbn [bind]. now rewrite to_nat_nth.
  Qed.

  (** The forward index. *)
  Definition fwd_holds (lists : list (list N)) (f : fwd) : Prop :=
    forall d l, nth_error lists d = Some l ->
      exists pos, fwd_iterator f d = Ok (pos, length l) /\
        forall j, j < length l -> fw_data f (pos + j) = Ok (nth j l 0%N).

  Lemma fwd_pointers_nth lists : forall size d, d <= length lists ->
    nth_error (fwd_pointers size lists) d = Some (size + length (concat (firstn d lists))).
  Proof.
    induction lists as [|l lists IH]; intros size d Hd; cbn in Hd.
    - assert (d = 0) by lia. subst. cbn. f_equal. lia.
    - destruct d as [|d]; cbn [fwd_pointers nth_error firstn concat length]; [f_equal; lia|].
      rewrite IH by lia. f_equal. rewrite app_length. lia.
  Qed.
  Lemma fwd_pointers_length lists : forall size, length (fwd_pointers size lists) = length lists + 1.
  Proof. induction lists as [|l lists IH]; intros size; cbn; [reflexivity|]. now rewrite IH. Qed.
  Lemma fwd_pointers_sorted lists : forall size, StronglySorted le (fwd_pointers size lists) /\
    Forall (fun x => size <= x <= size + length (concat lists)) (fwd_pointers size lists).
  Proof.
    induction lists as [|l lists IH]; intros size; cbn [fwd_pointers concat].
    - split; repeat constructor; cbn; lia.
    - destruct (IH (size + length l)) as [A B]. rewrite app_length. split.
      + constructor; [exact A|]. eapply Forall_impl; [|exact B]. cbn. lia.
      + constructor; [lia|]. eapply Forall_impl; [|exact B]. cbn. lia.
  Qed.

  Lemma concat_nth {A} (ls : list (list A)) : forall d l j x, nth_error ls d = Some l -> j < length l ->
    nth (length (concat (firstn d ls)) + j) (concat ls) x = nth j l x.
  Proof.
    induction ls as [|m ls IH]; intros d l j x Hd Hj; [destruct d; discriminate|].
    destruct d as [|d]; cbn in Hd.
    - injection Hd as ->. cbn. now rewrite app_nth1.
    - cbn [firstn concat]. rewrite app_length, app_nth2 by lia.
      replace (length m + length (concat (firstn d ls)) + j - length m) with (length (concat (firstn d ls)) + j) by lia.
      now apply IH.
  Qed.
  Lemma concat_firstn_S {A} (ls : list (list A)) : forall d l, nth_error ls d = Some l ->
    length (concat (firstn (S d) ls)) = length (concat (firstn d ls)) + length l.
  Proof.
    induction ls as [|m ls IH]; intros d l Hd; [destruct d; discriminate|].
    destruct d as [|d]; cbn in Hd.
    - injection Hd as ->. cbn. now rewrite app_nil_r.
    - specialize (IH d l Hd). cbn [firstn concat] in *. rewrite !app_length. lia.
  Qed.
  Lemma concat_firstn_le {A} (ls : list (list A)) d : length (concat (firstn d ls)) <= length (concat ls).
  Proof. rewrite <- (firstn_skipn d ls) at 2. rewrite concat_app, app_length. lia. Qed.

  Lemma fwd_build_ok T lists : (1 <= N.of_nat T < 4294967296)%N ->
    Forall (Forall (fun x => (x <= N.of_nat T)%N)) lists ->
    (N.of_nat (length (concat lists)) < 18446744073709551616)%N ->
    exists f, fwd_build K T lists = Ok f /\ fwd_holds lists f.
  Proof.
    intros HT Hl Htot. destruct (width_ok (N.of_nat T) HT) as [W1 W2].
    assert (Hc : Forall (fun x => (x <= N.of_nat T)%N) (concat lists)) by now apply Forall_concat.
    destruct (ok_vec K HK _ (concat lists) W1) as (acc & Ea & Ha).
    { eapply Forall_impl; [|exact Hc]. cbn. lia. }
    destruct (fwd_pointers_sorted lists 0) as [S1 S2].
    destruct (ok_seq K HK (map N.of_nat (fwd_pointers 0 lists))) as (q & Eq & Hq).
    { split; [destruct lists; discriminate|]. now apply sorted_N_of_nat. }
    { apply Forall_map. eapply Forall_impl; [|exact S2]. cbn. lia. }
    unfold fwd_build. rewrite Ea. cbn [bind]. rewrite Eq. cbn [bind]. eexists. split; [reflexivity|].
    intros d l Hd. assert (Hdl : d < length lists) by (apply nth_error_Some; congruence).
    assert (Hp : forall e, e <= length lists -> acc_nat q e = Ok (length (concat (firstn e lists)))).
    { intros e He. rewrite (holds_nat_acc (fwd_pointers 0 lists) q e Hq) by (rewrite fwd_pointers_length; lia).
      f_equal. apply nth_error_nth. now rewrite fwd_pointers_nth. }
    exists (length (concat (firstn d lists))). unfold fwd_iterator. cbn [fw_ptrs fw_data].
    rewrite Hp by lia. cbn [bind]. rewrite Hp by lia. cbn [bind]. rewrite Nat.add_1_r, (concat_firstn_S lists d l Hd).
    split.
    - destruct (Nat.ltb_spec (length (concat (firstn d lists)) + length l) (length (concat (firstn d lists)))); [lia|].
      do 2 f_equal. lia.
    - intros j Hj. assert (Hlt : length (concat (firstn d lists)) + j < length (concat lists)).
      { pose proof (concat_firstn_le lists (S d)) as H. rewrite (concat_firstn_S lists d l Hd) in H. lia. }
      rewrite Ha by assumption. rewrite (concat_nth lists d l j 0%N Hd Hj). f_equal. apply W2.
      rewrite Forall_forall in Hl. specialize (Hl l (nth_error_In _ _ Hd)). rewrite Forall_forall in Hl. apply Hl. now apply nth_In.
  Qed.

  Lemma fwd_scan_ok f pos l a b : (forall j, j < length l -> fw_data f (pos + j) = Ok (nth j l 0%N)) ->
    forall n i, i + n = length l ->
    exists r, fwd_scan f pos i n a b = Ok r /\
      (r = true <-> exists x, In x (skipn i l) /\ (N.of_nat a <= x <= N.of_nat b)%N).
  Proof.
    intros H. induction n as [|n IH]; intros i Hi; cbn [fwd_scan].
    - exists false. split; [reflexivity|]. rewrite skipn_all2 by lia. split; [discriminate|intros (x & [] & _)].
    - rewrite H by lia. cbn [bind]. destruct (IH (i + 1) ltac:(lia)) as (r & Er & Hr).
      assert (Es : skipn i l = nth i l 0%N :: skipn (i + 1) l).
      { assert (Hi2 : i < length l) by lia. clear -Hi2. revert i Hi2. induction l as [|x l IH]; intros [|i] Hi; cbn in *; try lia; [reflexivity|].
        apply IH. lia. }
      destruct (N.leb_spec (N.of_nat a) (nth i l 0%N)) as [A|A]; [destruct (N.leb_spec (nth i l 0%N) (N.of_nat b)) as [B|B]|]; cbn [andb].
      + exists true. split; [reflexivity|]. rewrite Es. split; [|reflexivity]. intros _. exists (nth i l 0%N). split; [now left|lia].
      + exists r. split; [exact Er|]. rewrite Hr, Es. split; intros (x & Hx & Hab); exists x.
        * split; [now right|exact Hab].
        * destruct Hx as [<-|Hx]; [lia|]. auto.
      + exists r. split; [exact Er|]. rewrite Hr, Es. split; intros (x & Hx & Hab); exists x.
        * split; [now right|exact Hab].
        * destruct Hx as [<-|Hx]; [lia|]. auto.
  Qed.

  Lemma fwd_intersects_ok lists f d l a b : fwd_holds lists f -> nth_error lists d = Some l ->
    exists r, fwd_intersects f d a b = Ok r /\ (r = true <-> exists x, In x l /\ (N.of_nat a <= x <= N.of_nat b)%N).
  Proof.
    intros Hf Hd. destruct (Hf d l Hd) as (pos & E & H). unfold fwd_intersects. rewrite E. cbn [bind].
    destruct (fwd_scan_ok f pos l a b H (length l) 0 eq_refl) as (r & Er & Hr). exists r. split; [exact Er|exact Hr].
  Qed.

  Lemma fwd_read_ok f pos (l : list N) : (forall j, j < length l -> fw_data f (pos + j) = Ok (nth j l 0%N)) ->
    map_res (fun j => fw_data f (pos + j)) (seq 0 (length l)) = Ok l.
  Proof.
    intros H. assert (G : forall m i, i + m = length l -> map_res (fun j => fw_data f (pos + j)) (seq i m) = Ok (skipn i l)).
    { induction m as [|m IH]; intros i Hi; cbn [seq map_res].
      - now rewrite skipn_all2 by lia.
      - rewrite H by lia. cbn [bind]. rewrite (IH (S i)) by lia. cbn [bind]. f_equal.
        assert (Hi2 : i < length l) by lia. clear -Hi2. revert i Hi2. induction l as [|x l IH]; intros [|i] Hi; cbn in *; try lia; [reflexivity|].
        apply IH. lia. }
    exact (G (length l) 0 eq_refl).
  Qed.
End Store.
