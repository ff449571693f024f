(** Model of the numbers that benchmark_prefix_topk, benchmark_conjunctive_topk and effectiveness report (not the times). [serve rs]: what a newly loaded
    index answers to the requests [rs], one after the other. No proofs. *)
From Verif Require Import Base M_Auto.
Local Open Scope nat_scope.

(** benchmark/benchmark_common.hpp:66-75: one call per query. *)
Definition ask (conj : bool) (k : nat) (query : list N) : request := {| rq_conj := conj; rq_k := k; rq_text := query |}.

Section Serve.
  Variable serve : list request -> res (list (list (nat * list N))).

  (** benchmark_common.hpp:8: five runs. *)
  Definition RUNS : nat := 5.
  (** benchmark_common.hpp:53-76 ("num_queries" and "reported_strings"). *)
  Definition benchmark (conj : bool) (k : nat) (queries : list (list N)) : res (nat * nat) :=
    do outs <- serve (concat (repeat (map (ask conj k) queries) RUNS));
    Ok (length queries, list_sum (map (@length _) outs) / RUNS).

  (** std::set_difference of two increasing ranges (benchmark/effectiveness.cpp:72-76). *)
  Fixpoint set_difference (l1 : list nat) : list nat -> list nat :=
    fix go (l2 : list nat) : list nat :=
      match l1, l2 with
      | [], _ => []
      | _, [] => l1
      | x :: l1', y :: l2' => if x <? y then x :: set_difference l1' l2 else if y <? x then go l2' else set_difference l1' l2'
      end.
  (** effectiveness.cpp:24-80: "strings_reported_by_prefix_search" and "better_scored_strings_reported_by_conjunctive_search". difference has no elements
      but memory for k; the scores are written there (formally undefined; [UB] here when they do not fit). Simplification: the two index objects answer
      separately; the static buffers that they share do not influence the answers (C37). *)
  Fixpoint better (k : nat) (pre con : list (list (nat * list N))) : res nat :=
    match pre, con with
    | p :: pre', c :: con' =>
        let difference := set_difference (map fst c) (map fst p) in
        if k <? length difference then UB else do s <- better k pre' con'; Ok (length difference + s)
    | _, _ => Ok 0
    end.
  (** As above: effectiveness.cpp:24-80. *)
  Definition effectiveness (k : nat) (queries : list (list N)) : res (nat * nat) :=
    do pre <- serve (map (ask false k) queries);
    do con <- serve (map (ask true k) queries);
    do more <- better k pre con;
    Ok (list_sum (map (@length _) pre), more).
End Serve.
