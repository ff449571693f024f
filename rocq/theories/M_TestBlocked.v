(** Model of the test program test/test_blocked_inverted_index.cpp. [Ok true]: the test passes; [Ok false]: a REQUIRE fails. No proofs. *)
From Verif Require Import Base M_Heap M_Iter M_Parse M_Intersect M_Containers M_CompactEf M_InvIndex M_EfSeq M_Blocked M_Real M_Input M_Stored M_Tests M_TestIndex.
Local Open Scope nat_scope.

(** test_blocked_inverted_index.cpp:48-58: both iterators side by side, as long as the first has results; then the second must be at its end. *)
Fixpoint same_streams {A B} (ops1 : stream_ops A) (ops2 : stream_ops B) (fuel : nat) (x : A) (y : B) : res bool :=
  match fuel with
  | 0 => Fuel
  | S fuel' =>
      if s_has_next ops1 x then
        if s_deref ops2 y =? s_deref ops1 x then
          do x <- s_next ops1 x;
          do y <- s_next ops2 y;
          same_streams ops1 ops2 fuel' x y
        else Ok false
      else Ok (negb (s_has_next ops2 y))
  end.

(** ** The random queries *)
Section Random.
  (** essentials::uniform_int_rng: [draw lo hi s] gives a number between lo and hi and the next state of the generator (essentials is not in the repository). *)
  Context {St : Type} (draw : nat -> nat -> St -> nat * St).
  (** test_common.hpp:71-73. *)
  Fixpoint draw_ids (n hi : nat) (s : St) : list nat * St :=
    match n with
    | 0 => ([], s)
    | S n => let (x, s) := draw 1 hi s in let (q, s) := draw_ids n hi s in (x :: q, s)
    end.
  (** test_common.hpp:69-79: draw again until there are two distinct terms. *)
  Fixpoint gen_query (fuel n hi : nat) (s : St) : res (list nat * St) :=
    match fuel with
    | 0 => Fuel
    | S fuel => let (q, s) := draw_ids n hi s in
                let q := deduplicate q in
                if 2 <=? length q then Ok (q, s) else gen_query fuel n hi s
    end.
  (** test_common.hpp:56-85 gen_random_queries. The two generators of the program share the state here. *)
  Fixpoint gen_random_queries (fuel num max_terms hi : nat) (s : St) : res (list (list nat) * St) :=
    match num with
    | 0 => Ok ([], s)
    | S num =>
        let (n, s) := draw 2 max_terms s in
        do (q, s) <- gen_query fuel n hi s;
        do (qs, s) <- gen_random_queries fuel num max_terms hi s;
        Ok (q :: qs, s)
    end.
End Random.

Section Blocked.
  Variable tail : N.
  Variable heap : forall A, heap_ops A.
  Variable sort : list ceit -> list ceit.
  Variable bsort : forall A : Type, (A -> nat) -> list A -> list A.
  Let KB := real_bcontainers tail heap sort bsort.

  (** test_blocked_inverted_index.cpp:42-59: one query. *)
  Definition check_both (fuel : nat) (d : inv_d) (b : binv_d) (q : list nat) : res bool :=
    do x <- intersection ce_ops (vd_docs d) (inv_of tail d) sort fuel q;
    do y <- binter_new KB (binv_of tail heap sort bsort b) fuel q;
    same_streams (inter_stream ce_ops (vd_docs d) fuel) (binter_stream KB (binv_of tail heap sort bsort b) fuel) fuel x y.

  (** test_blocked_inverted_index.cpp:31-60: one number of postings per block ([m]: universe * c in floating point, as in M_Blocked.split_blocks). The
      builder sets every member of the index (blocked_inverted_index.hpp:163-179), so nothing of the previous one is left. *)
  Definition check_blocked (fuel : nat) (p : params) (lists : list (list nat)) (d : inv_d) (queries : list (list nat)) (m : nat) : res bool :=
    do b <- bi_build_d m (N.to_nat (pa_universe p)) lists;
    if (N.of_nat (xd_docs b) =? pa_universe p)%N && (N.of_nat (xd_terms_num b) =? pa_terms p)%N then
      do (r, _) <- all_pass (fun q (s : unit) => do r <- check_both fuel d b q; Ok (r, s)) queries tt;
      Ok r
    else Ok false.

  (** test_blocked_inverted_index.cpp:8-63. [queries]: the random queries (test_common.hpp:56-86), given the number of terms. [ms]: the block sizes, given the
      universe. [junk]: as in M_Input.read_lists. *)
  Definition test_blocked (fuel : nat) (queries : nat -> list (list nat)) (ms : N -> list nat) (junk : N) (t : texts) : res bool :=
    do p <- M_Input.load (t_stats t);
    let lists := map (map N.to_nat) (snd (read_lists (N.to_nat (pa_terms p)) (open_file (t_inverted t)) junk)) in
    do d <- inv_build_d (N.to_nat (pa_universe p)) lists;
    if inv_sizes d p then
      do (r, _) <- all_pass (fun m (s : unit) => do r <- check_blocked fuel p lists d (queries (N.to_nat (pa_terms p))) m; Ok (r, s)) (ms (pa_universe p)) tt;
      Ok r
    else Ok false.
End Blocked.
