(** unsorted_list::topk on long lists: the result for k = 1. *)
From Coq Require Import ZArith Permutation.
From Verif Require Import Base S_TopK S_Heap M_Heap M_Iter M_TopK M_Containers M_InvIndex M_CompactEf M_Cart M_Real P_TopK P_Containers P_Real S_Iter P_Cart P_Long S_Intersect.
Local Open Scope nat_scope.

Lemma push_one {A} (std : heap_ops A) key x : std_heap std -> heap_push key std [] x = [x].
Proof.
  intros H. destruct (H key) as (H1 & _). destruct (H1 [] x) as [_ P]; [intros i ? ? _ Hi; now destruct i|]. exact (Permutation_length_1_inv (Permutation_sym P)).
Qed.

Theorem topk_wrong tail heap sort n : (tail < 2 ^ 64)%N -> (forall A, std_heap (heap A)) -> sorts_by_size ce_ops sort ->
  (1073741823 <= n <= 1431655764)%N ->
  exists l ul, N.of_nat (length l) = n /\ Forall (fun x => x <= 1) l /\ In 0 l /\ In 1 l /\ ulist_build (real_containers tail heap sort) l = Ok ul /\
    forall x topk fuel, exists v, unsorted_topk (ul_acc ul) (ul_size ul) (ul_rmq ul) (heap _) 1 false (S fuel) 0 (length l) (x :: topk) = Ok (1, v :: topk) /\
      v = 1.
Proof.
  intros Htail Hheap Hsort Hn. set (K := real_containers tail heap sort). pose proof (real_containers_ok tail heap sort Htail Hheap Hsort) as HK.
  set (i := N.to_nat (n / 2)). set (j := N.to_nat n - 1 - i).
  assert (Hd : (n = 2 * (n / 2) + n mod 2)%N) by (apply N.div_mod; lia). pose proof (N.mod_upper_bound n 2).
  assert (Hi : N.of_nat i = (n / 2)%N) by (unfold i; apply N2Nat.id).
  destruct (rmq_long i j) as (t & p & E1 & E2 & Hp & Hne); [unfold j; lia..|].
  set (l := valley i j) in *. assert (Hlen : length l = i + 1 + j) by apply valley_length.
  assert (Hnth : forall k, k < i + 1 + j -> nth k l 0 = if k =? i then 0 else 1) by (intros k; apply valley_nth).
  assert (Hle : Forall (fun x => x <= 1) l).
  { apply Forall_forall. intros x Hx. apply (In_nth _ _ 0) in Hx as (k & Hk & <-). rewrite Hnth by lia. destruct (k =? i); lia. }
  assert (Hp1 : nth p l 0 = 1). { rewrite Hnth by lia. destruct (Nat.eqb_spec p i); [congruence|reflexivity]. }
  assert (In1 : In 1 l) by (rewrite <- Hp1; apply nth_In; lia).
  assert (In0 : In 0 l). { replace 0 with (nth i l 0) by (rewrite Hnth by lia; now rewrite Nat.eqb_refl). apply nth_In. lia. }
  destruct (vec_build_ok K HK (map N.of_nat l)) as (acc & Ea & Ha).
  { apply Forall_map. eapply Forall_impl; [|exact Hle]. cbn. lia. }
  { exists 1%N. split; [|lia]. change 1%N with (N.of_nat 1). now apply in_map. }
  exists l, {| ul_acc := vec_nat acc; ul_size := length l; ul_rmq := ct_rmq t |}. split; [rewrite Hlen; unfold j; lia|]. split; [exact Hle|]. split; [exact In0|]. split; [exact In1|].
  split. { unfold ulist_build. cbn [K k_rmq real_containers]. unfold real_rmq. rewrite E1. cbn [bind]. fold K. rewrite Ea. reflexivity. }
  intros x topk fuel. exists 1. split; [|reflexivity]. cbn [ul_acc ul_size ul_rmq]. unfold unsorted_topk. rewrite Nat.sub_0_r. destruct (Nat.leb_spec (length l) 1); [lia|].
  rewrite Hlen. replace (i + 1 + j) with (S (i + j)) by lia. cbn [whole_range]. rewrite E2. cbn [bind]. unfold vec_nat at 1. rewrite Ha by (rewrite map_length; lia). cbn [bind].
  rewrite push_one by apply Hheap. cbn [loop unsorted_step bind sr_min_val set]. change 0%N with (N.of_nat 0). rewrite map_nth, Hp1. reflexivity.
Qed.

Lemma not_smallest l v : In 0 l -> 0 < v -> ~ k_smallest 1 (segment l 0 (length l)) [v].
Proof.
  intros H0 Hv (_ & _ & rest & P & Hall). unfold segment in P. rewrite Nat.sub_0_r in P. cbn [skipn] in P. rewrite firstn_all in P.
  apply (Permutation_in _ P) in H0. destruct H0 as [E|H0]; [lia|]. specialize (Hall v 0 (or_introl eq_refl) H0). lia.
Qed.
Theorem topk_not_smallest tail heap sort n : (tail < 2 ^ 64)%N -> (forall A, std_heap (heap A)) -> sorts_by_size ce_ops sort ->
  (1073741823 <= n <= 1431655764)%N ->
  exists l ul, N.of_nat (length l) = n /\ Forall (fun x => x <= 1) l /\ ulist_build (real_containers tail heap sort) l = Ok ul /\
    forall topk fuel, 0 < length topk -> 0 < fuel ->
    exists topk', unsorted_topk (ul_acc ul) (ul_size ul) (ul_rmq ul) (heap _) 1 false fuel 0 (length l) topk = Ok (1, topk') /\
      ~ k_smallest 1 (segment l 0 (length l)) (firstn 1 topk').
Proof.
  intros H1 H2 H3 H4. destruct (topk_wrong tail heap sort n H1 H2 H3 H4) as (l & ul & L1 & L2 & L3 & L4 & L5 & L6). exists l, ul. split; [exact L1|]. split; [exact L2|]. split; [exact L5|].
  intros [|x topk] [|fuel] Hl Hf; [cbn in Hl; lia..|lia|]. destruct (L6 x topk fuel) as (v & E & ->). exists (1 :: topk). split; [exact E|]. cbn [firstn]. apply not_smallest; [exact L3|lia].
Qed.
