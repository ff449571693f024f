(** The containers on bits meet the contracts of S_Containers and S_Blocked. *)
From Coq Require Import Sorted Permutation.
From Verif Require Import Base M_Heap S_Heap M_Iter S_Iter S_TopK S_Intersect S_Search M_Trie S_Trie M_Containers S_Containers M_Blocked S_Blocked.
From Verif Require Import M_Word S_Bits P_Word M_Bits P_Bits M_Cvec P_Cvec M_EfSeq P_EfSeq M_CompactEf P_CompactEf P_CompactIt M_InvIndex P_InvIndex P_Containers M_Bp M_Cart P_Cart M_Real.
Local Open Scope nat_scope.

Lemma first_geq_ngeq l lb : ngeq (map N.of_nat l) (N.of_nat lb) = first_geq l lb.
Proof. induction l as [|x l IH]; [reflexivity|]. cbn [map ngeq first_geq]. rewrite IH. destruct (N.leb_spec (N.of_nat lb) (N.of_nat x)), (Nat.leb_spec lb x); try lia; reflexivity. Qed.
Lemma increasing_sorted l : increasing l -> StronglySorted N.le (map N.of_nat l).
Proof. induction 1 as [|x l Hs IH Hx]; cbn [map]; constructor; [assumption|]. apply Forall_map. eapply Forall_impl; [|exact Hx]. cbn. lia. Qed.
Lemma length_concat_map (ls : list (list nat)) : length (concat (map (map N.of_nat) ls)) = length (concat ls).
Proof. induction ls as [|l ls IH]; [reflexivity|]. cbn [map concat]. now rewrite !app_length, map_length, IH. Qed.
Lemma in_concat_length {A} (l : list A) ls : In l ls -> length l <= length (concat ls).
Proof. intros Hl. apply in_split in Hl as (l1 & l2 & ->). rewrite concat_app, app_length. cbn [concat]. rewrite app_length. lia. Qed.
Lemma nth_map_N p l u : N.to_nat (nth p (map N.of_nat l) (N.of_nat u)) = nth p l u.
Proof. rewrite map_nth. apply Nat2N.id. Qed.
Lemma pow40 : (1099511627776 < 2 ^ 54)%N /\ (1099511627776 < 2 ^ 55)%N.
Proof. split; reflexivity. Qed.

Definition ce_cursor (tail : N) (u : nat) (it : ceit) (l : list nat) (p : nat) : Prop :=
  list_at tail (N.of_nat u) it (map N.of_nat l) p /\ l <> [] /\ increasing l /\ Forall (fun x => x < u) l.
Lemma ce_is_cursor tail u : cursor ce_ops u (ce_cursor tail u).
Proof.
  intros it l p (Hat & Hne & Hinc & Hlt). pose proof (la_le _ _ _ _ _ Hat) as Hp. rewrite map_length in Hp. cbn [i_size i_has_next i_deref i_next i_next_geq i_access0 ce_ops].
  split; [assumption|]. split; [assumption|]. split; [assumption|]. split; [assumption|].
  split; [rewrite (la_size _ _ _ _ _ Hat); apply map_length|]. split; [rewrite (la_pos _ _ _ _ _ Hat), (la_size _ _ _ _ _ Hat), map_length; reflexivity|].
  split; [rewrite (la_val _ _ _ _ _ Hat); apply nth_map_N|]. split; [|split].
  - intros L. destruct (la_next _ _ _ it p Hat) as (it' & E & H'); [rewrite map_length; assumption|]. exists it'. repeat (split; [assumption|]). assumption.
  - intros lb Hlb. destruct (la_geq _ _ _ it p (N.of_nat lb) Hat) as (it' & E & H'); [left; lia|]. exists it'. rewrite first_geq_ngeq in H'. repeat (split; [assumption|]). assumption.
  - destruct (la_access _ _ _ it p 0 Hat) as (it' & E & H'); [lia|]. exists it'. repeat (split; [assumption|]). assumption.
Qed.

Lemma lists_good u ls : Forall (fun l => l <> [] /\ increasing l /\ Forall (fun x => x < u) l) ls -> (N.of_nat (length (concat ls)) < 1099511627776)%N ->
  Forall (good_list (N.of_nat u)) (map (map N.of_nat) ls).
Proof.
  intros H Htot. apply Forall_map. rewrite Forall_forall in *. intros l Hl. destruct (H l Hl) as (H1 & H2 & H3). split; [intros E; apply map_eq_nil in E; congruence|].
  split; [now apply sorted_nondec, increasing_sorted|]. split; [apply Forall_map; eapply Forall_impl; [|exact H3]; cbn; lia|].
  rewrite map_length. pose proof (in_concat_length l ls Hl). pose proof pow40. unfold small. lia.
Qed.
Lemma small_u u : (N.of_nat u < 4294967296)%N -> small (N.of_nat u).
Proof. intros H. apply small_32. exact H. Qed.
Lemma nth_error_lists ls t l : nth_error ls t = Some l -> nth_error (map (map N.of_nat) ls) t = Some (map N.of_nat l).
Proof. intros H. now rewrite nth_error_map, H. Qed.

Section Real.
  Variable tail : N.
  Variable heap : forall A, heap_ops A.
  Variable sort : list ceit -> list ceit.
  Hypothesis Htail : (tail < 2 ^ 64)%N.
  Hypothesis Hheap : forall A, std_heap (heap A).
  Hypothesis Hsort : sorts_by_size ce_ops sort.

  Lemma real_containers_ok : containers_ok (real_containers tail heap sort).
  Proof.
    constructor; cbn [k_seq k_vec k_rmq k_It k_ops k_lists k_heap k_sort real_containers].
    - exact ef_seqc_ok.
    - intros w l Hw Hl. destruct (cv_build_width_ok l w) as (v & -> & Hv); [lia|eapply Forall_impl; [|exact Hl]; unfold W64; cbn; lia|]. cbn [bind].
      eexists. split; [reflexivity|]. intros i Hi. apply (cv_access_ok v w l); [assumption|lia|exact Htail|assumption].
    - intros l _ Hl. destruct (cartesian_rmq l) as (p & E & Hp); [lia|]. exists (ct_rmq p). split; [unfold real_rmq; now rewrite E|exact Hp].
    - intros u ls Hu Hne Hls Htot. destruct (inv_build_ok (N.of_nat u) (map (map N.of_nat) ls) tail) as (ii & -> & _ & Hit).
      + now apply small_u.
      + exact Htail.
      + intros E. apply map_eq_nil in E. congruence.
      + now apply lists_good.
      + rewrite length_concat_map. pose proof pow40. lia.
      + cbn [bind]. exists (inv_iterator tail ii), (ce_cursor tail u). split; [reflexivity|]. split; [apply ce_is_cursor|].
        intros t l Hl. destruct (Hit t _ (nth_error_lists _ _ _ Hl)) as (it & E & Hat). exists it. split; [assumption|].
        rewrite Forall_forall in Hls. destruct (Hls l (nth_error_In _ _ Hl)) as (H1 & H2 & H3). repeat (split; [assumption|]). assumption.
    - exact Hheap.
    - intros _. exact Hsort.
  Qed.

  Variable bsort : forall A : Type, (A -> nat) -> list A -> list A.
  Hypothesis Hbsort : forall A key l, Permutation (bsort A key l) l.

  Lemma in_length_increasing u l : increasing l -> Forall (fun x => x < u) l -> length l <= u.
  Proof.
    intros Hi Hl. rewrite <- (seq_length u 0). apply NoDup_incl_length.
    - clear -Hi. induction Hi as [|x l Hs IH Hx]; constructor; [|assumption]. intros HI. rewrite Forall_forall in Hx. specialize (Hx x HI). lia.
    - intros x Hx. rewrite Forall_forall in Hl. specialize (Hl x Hx). apply in_seq. lia.
  Qed.
  Lemma increasing_last l : l <> [] -> increasing l -> Forall (fun x => x < S (last l 0)) l.
  Proof.
    intros Hne Hi. induction Hi as [|x l Hs IH Hx]; [congruence|]. destruct l as [|y l]; [repeat constructor|]. change (last (x :: y :: l) 0) with (last (y :: l) 0).
    specialize (IH ltac:(discriminate)). constructor; [|assumption]. inversion Hx; subst. inversion IH; subst. lia.
  Qed.
  Lemma last_map_N l : last (map N.of_nat l) 0%N = N.of_nat (last l 0).
  Proof. induction l as [|x l IH]; [reflexivity|]. destruct l; [reflexivity|]. exact IH. Qed.

  Lemma real_bcontainers_ok : bcontainers_ok (real_bcontainers tail heap sort bsort).
  Proof.
    constructor; cbn [b_base b_position b_lists b_offsets b_terms b_sort real_bcontainers].
    - apply real_containers_ok.
    - intros u ls Hu Hne Hls Htot. destruct (docs_build_ok (N.of_nat u) (map (map N.of_nat) ls) tail) as (r & -> & Hit).
      + now apply small_u.
      + exact Htail.
      + intros E. apply map_eq_nil in E. congruence.
      + rewrite Forall_forall. intros l Hl. split; [pose proof (lists_good u ls Hls Htot) as Hg; rewrite Forall_forall in Hg; now apply Hg|].
        apply in_map_iff in Hl as (l' & <- & Hl). rewrite Forall_forall in Hls. destruct (Hls l' Hl) as (_ & H2 & H3). unfold fits32. rewrite map_length.
        pose proof (in_length_increasing u l' H2 H3). assert (2 ^ 32 = 4294967296)%N by reflexivity. lia.
      + rewrite length_concat_map. pose proof pow40. lia.
      + cbn [bind]. exists (docs_iterator tail (N.of_nat u) r), (ce_cursor tail u). split; [reflexivity|]. split; [apply ce_is_cursor|]. split.
        * intros t l Hl. destruct (Hit t _ (nth_error_lists _ _ _ Hl)) as (it & E & Hat). exists it. split; [assumption|].
          rewrite Forall_forall in Hls. destruct (Hls l (nth_error_In _ _ Hl)) as (H1 & H2 & H3). repeat (split; [assumption|]). assumption.
        * intros it l p (Hat & _). eapply la_pos, Hat.
    - intros ls Hne Hls Htot. destruct (offsets_build_ok (map (map N.of_nat) ls) tail) as (r & -> & Hit).
      + exact Htail.
      + intros E. apply map_eq_nil in E. congruence.
      + apply Forall_map. rewrite Forall_forall in *. intros l Hl. destruct (Hls l Hl) as (H1 & H2 & H3). unfold good_offsets, off_u. rewrite last_map_N.
        assert (Hlast : (N.of_nat (last l 0%nat) < 4294967295)%N).
        { rewrite Forall_forall in H3. apply H3. clear -H1. destruct l as [|x l]; [congruence|]. clear H1. revert x. induction l as [|y l IH]; intros x; [now left|]. right. apply IH. }
        pose proof (increasing_last l H1 H2) as Hb. pose proof (in_length_increasing _ _ H2 Hb).
        assert (2 ^ 32 = 4294967296)%N by reflexivity.
        split; [|split; [unfold fits32; rewrite map_length; lia|lia]].
        split; [intros E; apply map_eq_nil in E; congruence|]. split; [now apply sorted_nondec, increasing_sorted|].
        split; [apply Forall_map; eapply Forall_impl; [|exact Hb]; cbn; lia|]. rewrite map_length. apply small_32. lia.
      + rewrite length_concat_map. pose proof pow40. lia.
      + cbn [bind]. eexists. split; [reflexivity|]. intros b l Hl. destruct (Hit b _ (nth_error_lists _ _ _ Hl)) as (it & -> & Hat). cbn [bind]. eexists. split; [reflexivity|].
        intros i Hi. unfold offset_at. destruct (la_access _ _ _ it 0 i Hat) as (it' & -> & Hat'); [rewrite map_length; lia|]. cbn [bind].
        rewrite (la_val _ _ _ _ _ Hat'), (nth_indep _ _ (N.of_nat 0)) by (rewrite map_length; lia). now rewrite nth_map_N.
    - intros ls Hne Hls Htot. destruct (terms_build_ok (map (map N.of_nat) ls)) as (r & -> & Hit).
      + intros E. apply map_eq_nil in E. congruence.
      + apply Forall_map. eapply Forall_impl; [|exact Hls]. cbn. intros l (H1 & H2). split; [intros E; apply map_eq_nil in E; congruence|]. now apply Forall_map.
      + rewrite length_concat_map. pose proof pow40. lia.
      + cbn [bind]. eexists. split; [reflexivity|]. intros b l Hl. destruct (Hit b _ (nth_error_lists _ _ _ Hl)) as (base & w & -> & Ha). cbn [bind]. eexists. split; [reflexivity|].
        intros i Hi. cbn beta. rewrite Ha by (rewrite map_length; lia). cbn [bind]. rewrite (nth_indep _ _ (N.of_nat 0)) by (rewrite map_length; lia). now rewrite nth_map_N.
    - exact Hbsort.
  Qed.
End Real.
