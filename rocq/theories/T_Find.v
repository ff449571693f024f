(** C25: searching the node arrays of a trie level. *)
From Verif Require Import Base M_Find S_Search P_Find.
Local Open Scope nat_scope.

(** A level consists of sibling groups, each strictly increasing. Its node array is built from the
    concatenation of the groups and the pointers of the level above; whatever container stores
    the resulting values and reads them back, find(range of group k, id) is exact. *)
Theorem C25_find : forall groups k,
  k < length groups -> nth k groups [] <> [] ->
  increasing_on (concat groups) (group_begin groups k) (group_begin groups (S k)) ->
  exists vals,
    build_range_sums (concat groups) (group_pointers groups) = Ok vals /\
    forall acc itr id, reads vals acc itr ->
    exists r,
      seq_find acc itr (group_begin groups k) (group_begin groups (S k)) id = Ok r /\
      is_position (concat groups) (group_begin groups k) (group_begin groups (S k)) id r.
Proof. exact level_find. Qed.
Print Assumptions C25_find.

(** find(range of group k, [x,y]), Elias-Fano version (the one the trie uses). *)
Theorem C25_find_range : forall groups k,
  k < length groups -> nth k groups [] <> [] ->
  increasing_on (concat groups) (group_begin groups k) (group_begin groups (S k)) ->
  exists vals,
    build_range_sums (concat groups) (group_pointers groups) = Ok vals /\
    forall acc itr x y, reads vals acc itr -> (x <= y)%N ->
    exists q,
      ef_find_range acc itr (group_begin groups k) (group_begin groups (S k)) x y = Ok q /\
      is_value_range (concat groups) (group_begin groups k) (group_begin groups (S k)) x y q.
Proof. exact level_ef_find_range. Qed.
Print Assumptions C25_find_range.

(** The uint_vec version is exact for x < y only. *)
Theorem C25_uint_vec_find_range_partial : forall groups k,
  k < length groups -> nth k groups [] <> [] ->
  increasing_on (concat groups) (group_begin groups k) (group_begin groups (S k)) ->
  exists vals,
    build_range_sums (concat groups) (group_pointers groups) = Ok vals /\
    forall acc itr x y, reads vals acc itr -> (x < y)%N ->
    exists q,
      uv_find_range acc itr (group_begin groups k) (group_begin groups (S k)) x y = Ok q /\
      is_value_range (concat groups) (group_begin groups k) (group_begin groups (S k)) x y q.
Proof. exact level_uv_find_range. Qed.
Print Assumptions C25_uint_vec_find_range_partial.

(** For x = y uint_vec::find answers a position whose value lies outside the range. *)
Theorem C25_uint_vec_find_range_refuted :
  let l := [1; 5]%N in
  uv_find_range (get l) (fun lo j => get l (lo + j)) 0 2 3 3 = Ok (1, 2) /\
  ~ is_value_range l 0 2 3 3 (1, 2).
Proof. exact uv_find_range_refuted. Qed.
Print Assumptions C25_uint_vec_find_range_refuted.

Example C25_nonvacuous :
  let groups := [[2; 3]; []; [1; 2; 4]; [7]]%N in
  increasing_on (concat groups) (group_begin groups 2) (group_begin groups 3) /\
  nth 2 groups [] <> [] /\
  (exists vals, build_range_sums (concat groups) (group_pointers groups) = Ok vals /\
    vals = [2; 3; 4; 5; 7; 14]%N /\ reads vals (get vals) (fun lo j => get vals (lo + j)) /\
    seq_find (get vals) (fun lo j => get vals (lo + j)) 2 5 4 = Ok (Some 4) /\
    seq_find (get vals) (fun lo j => get vals (lo + j)) 2 5 3 = Ok None /\
    ef_find_range (get vals) (fun lo j => get vals (lo + j)) 2 5 2 3 = Ok (3, 4)).
Proof.
  cbv zeta. split; [|split; [discriminate|]].
  - intros i j Hi Hj Hk. cbn in Hi, Hk. assert (j = 3 \/ j = 4) as [->| ->] by lia.
    + replace i with 2 by lia. reflexivity.
    + assert (i = 2 \/ i = 3) as [->| ->] by lia; reflexivity.
  - eexists. split; [reflexivity|]. split; [reflexivity|]. split; [apply list_reads|].
    repeat split; reflexivity.
Qed.
