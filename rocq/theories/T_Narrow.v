(** C25 for uint_vec<UintType> with the arithmetic of UintType: the array is exact as long as the largest elements of all groups of siblings add up to a number
    that fits; uint_vec<uint32_t> as the nodes of a trie is not (F57). *)
From Coq Require Import Sorted.
From Verif Require Import Base M_Find S_Search P_Find M_Narrow S_Narrow P_Narrow.
Local Open Scope nat_scope.

(** [bits] is any width of at least 32 for find(range, id), which is where the sum is not computed in int. For range searches see
    C25_uint_vec_find_range_refuted (F9) for x = y. *)
Theorem C25_uint_vec_width_partial : forall bits groups k,
  k < length groups -> nth k groups [] <> [] -> Forall (StronglySorted N.lt) groups -> (level_total groups < 2 ^ N.of_nat bits)%N ->
  exists vals, uv_build bits (concat groups) (group_pointers groups) = Ok vals /\
    forall acc itr, reads vals acc itr ->
    (forall id, (id < 2 ^ N.of_nat bits)%N -> exists r,
       uv_find bits acc itr (group_begin groups k) (group_begin groups (S k)) id = Ok r /\
       is_position (concat groups) (group_begin groups k) (group_begin groups (S k)) id r) /\
    (forall x y, (x < y)%N -> exists q,
       uv_find_range acc itr (group_begin groups k) (group_begin groups (S k)) x y = Ok q /\
       is_value_range (concat groups) (group_begin groups k) (group_begin groups (S k)) x y q).
Proof. exact uv_level. Qed.
Print Assumptions C25_uint_vec_width_partial.

(** F57: 32 bits, two groups; the element 10 of the second one is stored as 4. No range search finds it, and the searched values are no longer in order. *)
Definition wide_level : list (list N) := [[4294967290]; [1; 10]]%N.
Theorem C25_uint_vec_width_refuted :
  Forall (StronglySorted N.lt) wide_level /\
  (forall x, In x (concat wide_level) -> (x < 2 ^ 32)%N) /\
  uv_build 32 (concat wide_level) (group_pointers wide_level) = Ok [4294967290; 4294967291; 4]%N /\
  (let l := [4294967290; 4294967291; 4]%N in
   uv_find_range (get l) (fun lo j => get l (lo + j)) 1 3 5 20 = Ok (3, 3)) /\
  ~ is_value_range (concat wide_level) (group_begin wide_level 1) (group_begin wide_level 2) 5 20 (3, 3).
Proof.
  split; [repeat constructor|]. split; [intros x Hx; cbn in Hx; repeat (destruct Hx as [<-|Hx]; [reflexivity|]); destruct Hx|]. split; [vm_compute; reflexivity|]. split; [vm_compute; reflexivity|].
  intros (_ & _ & H). destruct (H 2) as [_ X]; [cbn; lia|]. specialize (X ltac:(cbn; lia)). cbn in X. lia.
Qed.
Print Assumptions C25_uint_vec_width_refuted.

Example C25_width_nonvacuous :
  let groups := [[2; 3]; []; [1; 2; 4]; [7]]%N in
  level_total groups = 14%N /\ Forall (StronglySorted N.lt) groups /\
  uv_build 32 (concat groups) (group_pointers groups) = Ok [2; 3; 4; 5; 7; 14]%N /\
  (let l := [2; 3; 4; 5; 7; 14]%N in
   uv_find 32 (get l) (fun lo j => get l (lo + j)) 2 5 4 = Ok (Some 4) /\
   uv_find 32 (get l) (fun lo j => get l (lo + j)) 2 5 4294967295 = Ok None).
Proof. cbv zeta. split; [reflexivity|]. split; [repeat constructor|]. split; [vm_compute; reflexivity|]. split; vm_compute; reflexivity. Qed.
