(** bytes() is the length of what essentials::save writes, and print_stats reports it. *)
From Coq Require Import String ZArith Lia Permutation.
From Verif Require Import Base S_Completions S_Vocab S_Trie S_Collection M_Iter M_Fc M_IntFc M_Trie M_Containers M_Auto M_Auto1 M_Auto2 M_Blocked P_TrieFinal P_Collection.
From Verif Require Import M_Bits M_Cvec M_Darray M_EfSeq M_Rs M_Bp M_Cart M_InvIndex M_Stored M_Save P_Save M_Bytes S_Stats.
Local Open Scope nat_scope.

(** ** bytes() and save *)
Lemma vec_len {A} (c : codec A) fresh n l : (forall x, length (save c x) = n) -> length (save (vector c fresh) l) = vec_bytes n l.
Proof.
  intros H. unfold vec_bytes. cbn [vector save]. rewrite app_length, le_bytes_length. enough (length (flat_map (save c) l) = length l * n) by lia.
  induction l as [|x l IH]; [reflexivity|]. cbn [flat_map length]. rewrite app_length, H, IH. lia.
Qed.
Lemma pod_len n x : length (save (pod n) x) = n. Proof. apply le_bytes_length. Qed.
Lemma nat_len n x : length (save (nat_of (pod n)) x) = n. Proof. apply le_bytes_length. Qed.
Lemma signed_len n x : length (save (signed n) x) = n. Proof. apply le_bytes_length. Qed.
Lemma word64s_len l : length (save word64s l) = vec_bytes 8 l. Proof. apply vec_len. apply (pod_len 8). Qed.
Lemma nat64s_len l : length (save nat64s l) = vec_bytes 8 l. Proof. apply vec_len. apply (nat_len 8). Qed.
Lemma u64_len x : length (save u64 x) = 8. Proof. apply pod_len. Qed.
Lemma n64_len x : length (save (nat_of u64) x) = 8. Proof. apply (nat_len 8). Qed.
Lemma n32_len x : length (save (nat_of u32) x) = 4. Proof. apply (nat_len 4). Qed.
Lemma n8_len x : length (save (nat_of u8) x) = 1. Proof. apply (nat_len 1). Qed.
Lemma v16s_len l : length (save (vector u16 0%N) l) = vec_bytes 2 l. Proof. apply vec_len, pod_len. Qed.
Lemma v8s_len l : length (save (vector u8 0%N) l) = vec_bytes 1 l. Proof. apply vec_len, pod_len. Qed.
Lemma v32s_len l : length (save (vector u32 0%N) l) = vec_bytes 4 l. Proof. apply vec_len, pod_len. Qed.
Lemma vn32s_len l : length (save (vector (nat_of u32) 0) l) = vec_bytes 4 l. Proof. apply vec_len, n32_len. Qed.
Lemma vs_len n l : length (save (vector (signed n) 0%Z) l) = vec_bytes n l. Proof. apply vec_len, signed_len. Qed.

Ltac visit_len c := unfold c, visits; cbn [fold_right next member nothing save]; rewrite !app_length;
  rewrite ?u64_len, ?n64_len, ?n32_len, ?n8_len, ?word64s_len, ?nat64s_len, ?v16s_len, ?v8s_len, ?v32s_len, ?vn32s_len, ?vs_len; cbn [length].
Lemma bv_len v : length (save visit_bv v) = bv_bytes v.
Proof. visit_len visit_bv. unfold bv_bytes. lia. Qed.
Lemma cvec_len v : length (save visit_cvec v) = cvec_bytes v.
Proof. visit_len visit_cvec. unfold cvec_bytes. lia. Qed.
Lemma darray_len v : length (save visit_darray v) = darray_bytes v.
Proof. visit_len visit_darray. unfold darray_bytes. lia. Qed.
Lemma efs_len v : length (save visit_efs v) = efs_bytes v.
Proof. visit_len visit_efs. rewrite !bv_len, darray_len. unfold efs_bytes. lia. Qed.
Lemma rsv_len v : length (save visit_rsv v) = rsv_bytes v.
Proof. visit_len visit_rsv. rewrite bv_len. unfold rsv_bytes. lia. Qed.
Lemma bpv_len v : length (save visit_bpv v) = bpv_bytes v.
Proof. visit_len visit_bpv. rewrite rsv_len. unfold bpv_bytes. lia. Qed.
Lemma ulist_len v : length (save visit_ulist v) = ulist_bytes v.
Proof. visit_len visit_ulist. rewrite bpv_len, cvec_len. unfold ulist_bytes. lia. Qed.
Lemma dict_len v : length (save visit_dict v) = dict_bytes v.
Proof. visit_len visit_dict. unfold dict_bytes. lia. Qed.
Lemma idict_len v : length (save visit_idict v) = idict_bytes v.
Proof. visit_len visit_idict. unfold idict_bytes. lia. Qed.
Lemma inv_len v : length (save visit_inv v) = inv_bytes v.
Proof. visit_len visit_inv. rewrite efs_len, bv_len. unfold inv_bytes. lia. Qed.
Lemma fwd_len v : length (save visit_fwd v) = fwd_bytes v.
Proof. visit_len visit_fwd. rewrite efs_len, cvec_len. unfold fwd_bytes. lia. Qed.
Lemma binv_len v : length (save visit_binv v) = binv_bytes v.
Proof. visit_len visit_binv. rewrite !efs_len, !bv_len. unfold binv_bytes. lia. Qed.
Lemma index2_len d : length (save visit_index2 d) = index2_bytes d.
Proof. visit_len visit_index2. rewrite idict_len, !ulist_len, dict_len, inv_len, cvec_len. unfold index2_bytes. lia. Qed.
Lemma index3_len d : length (save visit_index3 d) = index3_bytes d.
Proof. visit_len visit_index3. rewrite idict_len, !ulist_len, dict_len, inv_len, cvec_len. unfold index3_bytes. lia. Qed.
Lemma index4_len d : length (save visit_index4 d) = index4_bytes d.
Proof. visit_len visit_index4. rewrite idict_len, !ulist_len, dict_len, binv_len, cvec_len. unfold index4_bytes. lia. Qed.

(** ** The trie *)
Definition efss (l : list efs) : nat := list_sum (map efs_bytes l).
Lemma efss_len fresh l : length (save (vector visit_efs fresh) l) = 8 + efss l.
Proof.
  cbn [vector save]. rewrite app_length, le_bytes_length. f_equal. induction l as [|x l IH]; [reflexivity|].
  cbn [flat_map]. rewrite app_length, efs_len, IH. reflexivity.
Qed.
Lemma each_eq l : each_bytes l = 8 + efss l.
Proof.
  unfold each_bytes. generalize 8. induction l as [|x l IH]; intros n; [unfold efss; cbn; lia|]. cbn [fold_left]. rewrite IH. unfold efss. cbn [map list_sum fold_right]. unfold list_sum. lia.
Qed.
Lemma add_up_eq step g n : forall i b, (forall j b, i <= j < i + n -> step j b = Ok (b + g j)) -> add_up step n i b = Ok (b + list_sum (map g (seq i n))).
Proof.
  induction n as [|n IH]; intros i b H; [cbn; f_equal; lia|]. cbn [add_up]. rewrite H by lia. cbn [bind]. rewrite IH by (intros; apply H; lia).
  cbn [seq map list_sum fold_right]. f_equal. unfold list_sum. lia.
Qed.
Definition at_ (l : list efs) (i : nat) : nat := nth i (map efs_bytes l) 0.
Lemma efss_at l : forall i, list_sum (map (fun j => at_ l (j - i)) (seq i (length l))) = efss l.
Proof.
  induction l as [|x l IH]; intros i; [reflexivity|]. cbn [length seq map list_sum fold_right]. unfold efss, at_ in *. cbn [map list_sum fold_right].
  rewrite Nat.sub_diag. cbn [nth]. specialize (IH (S i)). unfold list_sum in *. rewrite <- IH. f_equal. f_equal. apply map_ext_in. intros j Hj. apply in_seq in Hj.
  replace (j - i) with (S (j - S i)) by lia. reflexivity.
Qed.
Lemma efss_at0 l n : length l = n -> list_sum (map (at_ l) (seq 0 n)) = efss l.
Proof. intros <-. rewrite <- (efss_at l 0). f_equal. apply map_ext. intros j. now rewrite Nat.sub_0_r. Qed.
Lemma get_at l i : i < length l -> exists e, get l i = Ok e /\ efs_bytes e = at_ l i.
Proof.
  intros H. unfold get. destruct (nth_error l i) as [e|] eqn:E; [|apply nth_error_None in E; lia]. exists e. split; [reflexivity|].
  unfold at_. rewrite (nth_indep _ _ (efs_bytes e)) by (rewrite map_length; lia). rewrite map_nth. f_equal. symmetry. now apply nth_error_nth.
Qed.
Lemma list_sum_add {A} (f g : A -> nat) l : list_sum (map (fun x => f x + g x) l) = list_sum (map f l) + list_sum (map g l).
Proof. induction l as [|x l IH]; [reflexivity|]. cbn [map list_sum fold_right]. unfold list_sum in *. lia. Qed.

Definition shaped (d : trie_d) : Prop := exists n, length (td_nodes d) = S n /\ length (td_left d) = S n /\ length (td_sizes d) = S n /\ length (td_ptrs d) = n.
Lemma trie_bytes_eq d : shaped d -> trie_bytes d = Ok (4 + (8 + efss (td_nodes d)) + (8 + efss (td_ptrs d)) + (8 + efss (td_left d)) + (8 + efss (td_sizes d))).
Proof.
  intros (n & Hn & Hl & Hs & Hp). unfold trie_bytes. rewrite Hn. cbv zeta.
  set (g := fun i => at_ (td_nodes d) i + (at_ (td_left d) i + (at_ (td_sizes d) i + if i =? n then 0 else at_ (td_ptrs d) i))).
  rewrite (add_up_eq _ g).
  - f_equal. unfold g. rewrite !list_sum_add. rewrite !efss_at0 by assumption. rewrite seq_S, map_app, list_sum_app. cbn [plus map].
    rewrite Nat.eqb_refl. replace (list_sum (map _ (seq 0 n))) with (efss (td_ptrs d)); [cbn [list_sum fold_right]; lia|].
    rewrite <- (efss_at0 _ n Hp). f_equal. apply map_ext_in. intros j Hj. apply in_seq in Hj. destruct (Nat.eqb_spec j n); [lia|reflexivity].
  - intros j b Hj. destruct (get_at (td_nodes d) j) as (e1 & -> & E1); [lia|]. destruct (get_at (td_left d) j) as (e2 & -> & E2); [lia|].
    destruct (get_at (td_sizes d) j) as (e3 & -> & E3); [lia|]. cbn [bind]. replace (S n - 1) with n by lia. unfold g. destruct (Nat.eqb_spec j n) as [->|Hne]; [f_equal; lia|].
    destruct (get_at (td_ptrs d) j) as (e4 & -> & E4); [lia|]. cbn [bind]. f_equal. lia.
Qed.
Lemma trie_pointers_eq d : shaped d -> trie_pointers_bytes d = Ok (8 + efss (td_ptrs d)).
Proof.
  intros (n & Hn & Hl & Hs & Hp). unfold trie_pointers_bytes. rewrite Hn. rewrite (add_up_eq _ (at_ (td_ptrs d))); [now rewrite efss_at0|].
  intros j b Hj. destruct (get_at (td_ptrs d) j) as (e4 & -> & E4); [lia|]. cbn [bind]. f_equal. lia.
Qed.
Lemma trie_len fresh d : shaped d -> trie_bytes d = Ok (length (save (visit_trie fresh) d)).
Proof. intros H. rewrite (trie_bytes_eq d H). visit_len visit_trie. rewrite !efss_len. f_equal. lia. Qed.
Lemma index1_len fresh d : shaped (d1_comps d) -> index1_bytes d = Ok (length (save (visit_index1 fresh) d)).
Proof.
  intros H. unfold index1_bytes. rewrite (trie_len fresh _ H). cbn [bind]. visit_len visit_index1. rewrite !ulist_len, dict_len, inv_len, fwd_len. f_equal. lia.
Qed.

(** ** What is counted *)
Lemma concat_len {A} (l : list (list A)) : length (concat l) = list_sum (map (@length A) l).
Proof. induction l as [|x l IH]; [reflexivity|]. cbn [concat map list_sum fold_right]. rewrite app_length, IH. reflexivity. Qed.
Lemma find_doc_none ds : forall cs d, ~ In d ds -> find_doc ds cs d = [].
Proof.
  induction ds as [|d' ds IH]; intros cs d H; [reflexivity|]. destruct cs as [|ids cs]; [reflexivity|]. cbn [find_doc].
  destruct (Nat.eqb_spec d' d) as [->|]; [exfalso; apply H; now left|]. apply IH. intros Hi. apply H. now right.
Qed.
Lemma indicator_sum v d u : list_sum (map (fun x => if d =? x then v else 0) (seq 0 u)) = if d <? u then v else 0.
Proof.
  induction u as [|u IH]; [reflexivity|]. rewrite seq_S, map_app, list_sum_app, IH. cbn [plus map list_sum fold_right].
  destruct (Nat.eqb_spec d u); destruct (Nat.ltb_spec d u); destruct (Nat.ltb_spec d (S u)); lia.
Qed.
Lemma sum_docs (g : list N -> nat) u : g [] = 0 -> forall ds cs, length ds = length cs -> NoDup ds -> Forall (fun d => d < u) ds ->
  list_sum (map (fun d => g (find_doc ds cs d)) (seq 0 u)) = list_sum (map g cs).
Proof.
  intros Hg. induction ds as [|d ds IH]; intros cs Hl Hn Hu.
  - destruct cs; [|discriminate]. cbn [find_doc map list_sum fold_right]. rewrite Hg. induction (seq 0 u) as [|x l IHl]; [reflexivity|exact IHl].
  - destruct cs as [|ids cs]; [discriminate|]. inversion_clear Hn as [|? ? Hd Hn']. inversion_clear Hu as [|? ? Hu0 Hu'].
    cbn [map list_sum fold_right]. change (fold_right Nat.add 0 (map g cs)) with (list_sum (map g cs)). rewrite <- (IH cs) by (try assumption; cbn in Hl; lia).
    rewrite (map_ext _ (fun x => (if d =? x then g ids else 0) + g (find_doc ds cs x))).
    + rewrite list_sum_add, indicator_sum. destruct (Nat.ltb_spec d u); lia.
    + intros x. cbn [find_doc]. destruct (Nat.eqb_spec d x) as [<-|]; [rewrite (find_doc_none ds cs d Hd), Hg; lia|reflexivity].
Qed.
Lemma swap_sums {A B} (P : A -> B -> bool) (xs : list A) (ys : list B) :
  list_sum (map (fun x => length (filter (P x) ys)) xs) = list_sum (map (fun y => length (filter (fun x => P x y) xs)) ys).
Proof.
  induction xs as [|x xs IH]; [cbn; induction ys as [|y ys IHy]; [reflexivity|exact IHy]|]. cbn [map list_sum fold_right]. unfold list_sum in *. rewrite IH. clear IH.
  induction ys as [|y ys IHy]; [reflexivity|]. cbn [map fold_right]. rewrite <- IHy. cbn [filter]. destruct (P x y); cbn [length]; lia.
Qed.
Lemma distinct_count l T : Forall (fun x => x <> 0%N /\ N.to_nat x <= T) l ->
  length (filter (fun x => existsb (N.eqb (N.of_nat x)) l) (seq 1 T)) = length (nodup N.eq_dec l).
Proof.
  intros H. rewrite <- (map_length N.of_nat). apply Permutation_length. apply NoDup_Permutation.
  - apply FinFun.Injective_map_NoDup; [intros a b; lia|]. apply NoDup_filter, seq_NoDup.
  - apply NoDup_nodup.
  - intros x. rewrite nodup_In, in_map_iff. rewrite Forall_forall in H. split.
    + intros (y & <- & Hy). apply filter_In in Hy as [_ Hy]. apply existsb_exists in Hy as (z & Hz & E). apply N.eqb_eq in E. now subst z.
    + intros Hx. destruct (H x Hx) as [H1 H2]. exists (N.to_nat x). split; [lia|]. apply filter_In. split; [apply in_seq; lia|]. apply existsb_exists. exists x. split; [exact Hx|].
      apply N.eqb_eq. lia.
Qed.
Section Counts.
  Variable c : collection.
  Hypothesis Hwf : wf_collection c.
  Lemma words_count : length (concat (f_forward (files_of c))) = num_words c.
  Proof.
    unfold num_words. rewrite !concat_len. cbn [files_of f_forward]. rewrite map_map. unfold forward_list.
    apply (sum_docs (@length N)); [reflexivity|exact (wf_docs_len c Hwf)|exact (wf_docs_nodup c Hwf)|exact (wf_docs_lt c Hwf)].
  Qed.
  Lemma postings_count : length (concat (f_inverted (files_of c))) = num_postings c.
  Proof.
    unfold num_postings. rewrite concat_len. cbn [files_of f_inverted]. rewrite map_map. unfold posting_list.
    rewrite (swap_sums (fun x d => existsb (N.eqb (N.of_nat x)) (forward_list c d))). unfold forward_list.
    rewrite (sum_docs (fun l => length (filter (fun x => existsb (N.eqb (N.of_nat x)) l) (seq 1 (length (terms c)))))).
    - f_equal. apply map_ext_in. intros ids Hi. apply distinct_count. pose proof (wf_ids c Hwf) as H1. destruct (wf_comps c Hwf) as (_ & _ & H4).
      rewrite Forall_forall in H1, H4. specialize (H1 ids Hi). destruct (H4 ids Hi) as [H5 _]. rewrite Forall_forall in *. intros x Hx. specialize (H1 x Hx). specialize (H5 x Hx). cbv beta in *. split; lia.
    - cbn [existsb]. induction (seq 1 _) as [|x l IH]; [reflexivity|exact IH].
    - exact (wf_docs_len c Hwf).
    - exact (wf_docs_nodup c Hwf).
    - exact (wf_docs_lt c Hwf).
  Qed.
End Counts.
