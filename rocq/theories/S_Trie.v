(** Specification of the completion trie's input and containers. *)
From Coq Require Import Sorted.
From Verif Require Import Base S_Order S_Search S_Completions M_Trie.

(** params.num_levels: length of the longest completion, terminator included. *)
Definition num_levels (cs : list (list N)) : nat := fold_right Nat.max 0 (map (fun c => length c + 1) cs).

(** The records of the .mapped file. *)
Definition records (docs : list nat) (cs : list (list N)) : list (nat * list N) :=
  combine docs (map terminated cs).

(** [q] stores the array [l]. *)
Definition holds (l : list N) (q : seqc) : Prop := q_size q = length l /\ reads l (q_acc q) (q_itr q).
Definition holds_nat (l : list nat) (q : seqc) : Prop := holds (map N.of_nat l) q.

(** The trie's containers store the arrays of the builder. *)
Definition trie_holds (ta : trie_arrays) (t : trie) : Prop :=
  Forall2 holds (ta_nodes ta) (tr_nodes t) /\
  Forall2 holds_nat (ta_ptrs ta) (tr_ptrs t) /\
  Forall2 holds_nat (ta_left ta) (tr_left t) /\
  Forall2 holds_nat (ta_sizes ta) (tr_sizes t).

(** What the containers require: non-empty non-decreasing arrays. *)
Definition monotone (l : list N) : Prop := l <> [] /\ StronglySorted N.le l.
Definition trie_monotone (ta : trie_arrays) : Prop :=
  Forall monotone (ta_nodes ta) /\
  Forall (fun l => monotone (map N.of_nat l)) (ta_ptrs ta ++ ta_left ta ++ ta_sizes ta).
