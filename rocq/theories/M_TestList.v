(** Model of the test program test/test_unsorted_list.cpp. As in M_Tests, [Ok true]: the test passes; [Ok false]: a REQUIRE fails. No proofs. *)
From Verif Require Import Base M_Heap M_TopK M_Parse M_Containers M_Auto1 M_Cvec M_Input M_Save M_Stored M_Tests.
Local Open Scope nat_scope.

(** test_unsorted_list.cpp:5-20 naive_topk: the first [results] elements of the vector topk, which has [cap] elements. *)
Definition naive_topk (input : list nat) (cap a b k : nat) (unique : bool) : res (list nat) :=
  if (b - a <=? cap) && (b <=? length input) then
    let s := sort_nat (firstn (b - a) (skipn a input)) in
    Ok (firstn k (if unique then uniq s else s))
  else UB.

Section Ranges.
  (** essentials::uniform_int_rng: [draw lo hi s] gives a number between lo and hi and the next state of the generator (essentials is not in the repository). *)
  Context {St : Type} (draw : nat -> nat -> St -> nat * St).
  (** test_unsorted_list.cpp:22-39 gen_random_queries: [num] times two numbers up to [max], the smaller one first. *)
  Fixpoint gen_ranges (num max : nat) (s : St) : list (nat * nat) * St :=
    match num with
    | 0 => ([], s)
    | S num =>
        let (x, s) := draw 0 max s in
        let (y, s) := draw 0 max s in
        let r := if x <? y then (x, y) else (y, x) in
        let (rs, s) := gen_ranges num max s in
        (r :: rs, s)
    end.
End Ranges.

Section Test.
  Variable tail : N.
  Variable std : heap_ops scored_range.

  (** test_unsorted_list.cpp:91-103, 155-168: one query; [k] = 10. State: the vector topk. *)
  Definition check_range (unique : bool) (ul : ulist) (input : list nat) (cap : nat) (r : nat * nat) (topk : list nat) : res (bool * list nat) :=
    let '(a, b) := r in
    do e <- naive_topk input cap a b 10 unique;
    do (n, topk) <- unsorted_topk (ul_acc ul) (ul_size ul) (ul_rmq ul) std 10 unique (length input + 2) a b topk;
    Ok ((length e =? n) && forallb (fun p => fst p =? snd p) (combine (firstn n topk) e), topk).
  (** test_unsorted_list.cpp:77-106, 140-171: build, size, save, load into [old], then all queries with a vector of MAX_K = 15 scores. [queries]: the random
      ranges (test_unsorted_list.cpp:22-39), given the length of the list. *)
  Definition test_list (unique : bool) (old : ulist_d) (queries : nat -> list (nat * nat)) (input : list nat) (cap : nat) : res bool :=
    do d <- ulist_build_d input;
    if cv_size (ud_list d) =? length input then
      do d <- load_file visit_ulist old (save_file visit_ulist d);
      do (b, _) <- all_pass (check_range unique (ulist_of tail d) input cap) (queries (length input)) (repeat 0 15);
      Ok b
    else Ok false.
  (** test_unsorted_list.cpp:41-107: the doc ids of the completions. *)
  Definition test_docs (old : ulist_d) (queries : nat -> list (nat * nat)) (fuel : nat) (junk : N) (t : texts) : res bool :=
    do p <- M_Input.load (t_stats t);
    do (recs, _) <- read_mapped fuel junk (t_mapped t);
    test_list false old queries (map (fun r => N.to_nat (fst r)) recs) (N.to_nat (pa_comps p)).
  (** test_unsorted_list.cpp:109-171: the first doc id of every posting list. (For an empty list the test would read 2^64 - 1 numbers; here UB.) *)
  Definition test_minimal (old : ulist_d) (queries : nat -> list (nat * nat)) (junk : N) (t : texts) : res bool :=
    do p <- M_Input.load (t_stats t);
    do mins <- minimal_doc_ids (map (map N.to_nat) (snd (read_lists (N.to_nat (pa_terms p)) (open_file (t_inverted t)) junk)));
    if (N.of_nat (length mins) =? pa_terms p)%N then test_list true old queries mins (N.to_nat (pa_terms p)) else Ok false.
End Test.
