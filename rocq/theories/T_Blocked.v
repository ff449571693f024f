(** C35, C36: the blocked inverted index. *)
From Verif Require Import Base S_Iter M_Iter M_Intersect S_Intersect M_Containers S_Containers M_Auto S_Collection P_ListContainers.
From Verif Require Import M_Blocked S_Blocked P_BlockFinal.

(** Input of the builder: non-empty increasing posting lists with doc ids below [u]; sizes fit 32 bits. *)
Definition lists_ok (u : nat) (posts : list (list nat)) : Prop :=
  (N.of_nat u < 4294967296)%N /\ posts <> [] /\
  Forall (fun l => l <> [] /\ increasing l /\ Forall (fun x => x < u) l) posts /\
  (N.of_nat (length (concat posts)) < 4294967295)%N.

(** C35, for every block size [m] and every correct container: every term is in exactly one block, the one block_id()
    says; and every block holds exactly its documents and for each of them its terms. The concrete containers are the
    subject of C21 and C26: hence partial. *)
Theorem C35_blocks_partial : forall K u posts m, bcontainers_ok K -> lists_ok u posts ->
  exists ii, bi_build K m u posts = Ok ii /\
    (forall t, 1 <= t <= length posts -> in_block (bi_bounds K ii) (block_id K ii t) t /\
       forall i, in_block (bi_bounds K ii) i t -> i = block_id K ii t) /\
    (forall i, i < length (bi_bounds K ii) ->
       exists b, open_block K ii i [] = Ok b /\ block_holds K posts u (bi_bounds K ii) i b).
Proof. intros K u posts m HK (A & B & C & D). exact (blocked_partition K HK u posts A B C D m). Qed.
Print Assumptions C35_blocks_partial.

(** C36: the intersection iterator for [ids] (sorted, without duplicates) reads exactly the documents having all
    terms, increasing, if [ids] are not all in the same block. If they are, it misses the first document
    of the block (finding F5), and only that. *)
Theorem C36_blocked_intersection_partial : forall K u posts m, bcontainers_ok K -> lists_ok u posts ->
  exists ii, bi_build K m u posts = Ok ii /\
    forall fuel ids, ids <> [] -> increasing ids -> Forall (fun t => 1 <= t <= length posts) ids ->
      (u + 2) * (length ids + 1) < fuel ->
    exists x r, binter_new K ii fuel ids = Ok x /\ yields (binter_stream K ii fuel) x r /\ increasing r /\
      ((forall i, ~ Forall (in_block (bi_bounds K ii) i) ids) -> common_docs posts ids r) /\
      (forall i, Forall (in_block (bi_bounds K ii) i) ids ->
         forall d, In d r <-> Forall (has_term posts d) ids /\ ~ leads (bi_bounds K ii) posts i d).
Proof. intros K u posts m HK (A & B & C & D). exact (blocked_intersection K HK u posts A B C D m). Qed.
Print Assumptions C36_blocked_intersection_partial.

(** Finding F5: terms 1 and 2 in one block, documents 0 and 1 have both; document 0 is not found. *)
Definition posts_ex : list (list nat) := [[0; 1; 3]; [0; 1]; [2; 3]].
Theorem C36_single_block_refuted :
  bcontainers_ok list_bcontainers /\ lists_ok 4 posts_ex /\
  exists ii x, bi_build list_bcontainers 4 4 posts_ex = Ok ii /\ bi_bounds _ ii = [2; 3] /\
    binter_new list_bcontainers ii 100 [1; 2] = Ok x /\
    yields (binter_stream list_bcontainers ii 100) x [1] /\ ~ common_docs posts_ex [1; 2] [1].
Proof.
  split; [exact list_bcontainers_ok|].
  split; [unfold lists_ok, posts_ex; split; [reflexivity|]; split; [discriminate|]; split; [|reflexivity]; repeat constructor; discriminate|].
  destruct (bi_build list_bcontainers 4 4 posts_ex) as [ii| | |] eqn:E; try (vm_compute in E; discriminate).
  vm_compute in E. injection E as <-.
  eexists _, _. split; [reflexivity|]. split; [reflexivity|]. split; [vm_compute; reflexivity|].
  split.
  - split; [reflexivity|]. split; [reflexivity|]. eexists. split; [vm_compute; reflexivity|reflexivity].
  - intros [_ H]. destruct (proj2 (H 0)) as [H2|[]]; [|discriminate]. repeat constructor; cbn; auto.
Qed.
Print Assumptions C36_single_block_refuted.

(** ** Non-vacuity: two blocks {1, 2} and {3}. *)
Example C35_C36_nonvacuous :
  bcontainers_ok list_bcontainers /\ lists_ok 4 posts_ex /\
  exists ii x, bi_build list_bcontainers 4 4 posts_ex = Ok ii /\ bi_bounds _ ii = [2; 3] /\
    block_id _ ii 2 = 0 /\ block_id _ ii 3 = 1 /\
    binter_new list_bcontainers ii 100 [1; 3] = Ok x /\ yields (binter_stream list_bcontainers ii 100) x [3] /\
    (forall i, ~ Forall (in_block [2; 3] i) [1; 3]).
Proof.
  split; [exact list_bcontainers_ok|]. split; [apply C36_single_block_refuted|].
  eexists _, _. split; [vm_compute; reflexivity|]. split; [reflexivity|]. split; [reflexivity|]. split; [reflexivity|].
  split; [vm_compute; reflexivity|]. split.
  - split; [reflexivity|]. split; [reflexivity|]. eexists. split; [vm_compute; reflexivity|reflexivity].
  - intros i H. inversion H as [|? ? H1 H2]; subst. inversion H2 as [|? ? H3 _]; subst.
    destruct H1 as (A1 & A2 & A3), H3 as (B1 & B2 & B3). destruct i as [|[|i]]; cbn in *; lia.
Qed.
