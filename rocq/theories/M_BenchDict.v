(** Model of benchmark/benchmark_fc_dictionary.cpp, benchmark_integer_fc_dictionary.cpp and benchmark_locate_prefix.cpp: the results of the calls that are
    timed (they are given to do_not_optimize_away), not the times. No proofs. *)
From Verif Require Import Base M_Parse M_Fc M_IntFc M_Find M_Trie M_Containers M_Auto M_Auto1 M_Input M_Tools M_Bench.
Local Open Scope nat_scope.

(** for (auto const& query : queries) ..., with the static buffers of the functions called as a state (benchmark_fc_dictionary.cpp:16-19, 28-31,
    37-40, 52-60, benchmark_integer_fc_dictionary.cpp:16-19). *)
Fixpoint each {A B St} (f : A -> St -> res (B * St)) (l : list A) (s : St) : res (list B * St) :=
  match l with
  | [] => Ok ([], s)
  | x :: l' => do (y, s) <- f x s; do (ys, s) <- each f l' s; Ok (y :: ys, s)
  end.
(** for (i = 0; i != benchmarking::runs; ++i) ... (benchmark_fc_dictionary.cpp:14-21, 35-42, 50-62, benchmark_integer_fc_dictionary.cpp:14-21). *)
Fixpoint times {B St} (n : nat) (f : St -> res (B * St)) (s : St) : res (list B * St) :=
  match n with
  | 0 => Ok ([], s)
  | S n => do (y, s) <- f s; do (ys, s) <- times n f s; Ok (y :: ys, s)
  end.

(** The sizes of exe(4) ... exe(256) (benchmark_fc_dictionary.cpp:106, benchmark_integer_fc_dictionary.cpp:59). *)
Definition bench_sizes : list bucket_size :=
  [ {| BUCKET := 4; bucket_pos := Nat.lt_0_succ 3 |}; {| BUCKET := 8; bucket_pos := Nat.lt_0_succ 7 |}; {| BUCKET := 16; bucket_pos := Nat.lt_0_succ 15 |};
    {| BUCKET := 32; bucket_pos := Nat.lt_0_succ 31 |}; {| BUCKET := 64; bucket_pos := Nat.lt_0_succ 63 |}; {| BUCKET := 128; bucket_pos := Nat.lt_0_succ 127 |};
    {| BUCKET := 256; bucket_pos := Nat.lt_0_succ 255 |} ].

(** ** benchmark_fc_dictionary.cpp *)
(** An id_type: invalid_term_id = 2^32 - 1 (benchmark_fc_dictionary.cpp:26-31). *)
Definition id_value (o : option nat) : nat := match o with Some i => i | None => N.to_nat INVALID_TERM_ID end.
(** benchmark_fc_dictionary.cpp:53-58: the first size * p characters, p = [quarters] / 4 (the product is a float), but at least one. The character after the last
    one of a std::string is 0; what follows it must not be read. *)
Definition first_part (quarters : N) (query : list N) : res (list N) :=
  let n := N.to_nat (rnd24 (rnd24 (N.of_nat (length query)) * quarters) / 4) in
  slice (query ++ [0%N]) 0 (if n =? 0 then 1 else n).
(** r.end - r.begin (benchmark_fc_dictionary.cpp:59). *)
Definition width (r : option (nat * nat)) : nat := match r with Some (a, b) => b - a | None => 0 end.
(** What perf_test computes (benchmark_fc_dictionary.cpp:8-68). *)
Record fc_perf := { fp_locate : list (list (option nat)); fp_extract : list (list nat); fp_prefix : list (list (list nat)) }.
(** benchmark_fc_dictionary.cpp:8-68 perf_test. *)
Definition fc_perf_test {bucket : bucket_size} (d : fcd) (queries : list (list N)) : res fc_perf :=
  do (located, dec) <- times RUNS (each (fc_locate d) queries) (repeat 0%N 256);
  do (ids, _) <- each (fc_locate d) queries dec;
  do (extracted, _) <- times RUNS (each (fun id out => fc_extract d (id_value id) out 0) ids) (repeat 0%N 256);
  do (ranges, _) <- each (fun p => times RUNS (each (fun q bufs =>
       do x <- first_part p q; do (r, dl, dr) <- fc_locate_prefix d x (fst bufs) (snd bufs); Ok (width r, (dl, dr))) queries))
     [0; 1; 2; 3; 4]%N (repeat 0%N 256, repeat 0%N 256);
  Ok {| fp_locate := located; fp_extract := extracted; fp_prefix := ranges |}.
(** benchmark_fc_dictionary.cpp:82-107 main. [n] = max_num_queries. *)
Definition bench_fc (n : nat) (t : texts) (input : list N) : res (list fc_perf) :=
  do p <- M_Input.load (t_stats t);
  do queries <- each_line (fun q qs => Ok (qs ++ [q])) n (open_file input) [] [];
  map_res (fun bucket => do d <- @fc_build bucket (snd (read_words (N.to_nat (pa_terms p)) (open_file (t_dict t)) [])); @fc_perf_test bucket d queries)
    bench_sizes.

(** ** benchmark_integer_fc_dictionary.cpp *)
(** benchmark_integer_fc_dictionary.cpp:9-25 perf_test. *)
Definition ifc_perf_test {bucket : bucket_size} (d : fcd) (queries : list nat) : res (list (list nat)) :=
  do (lens, _) <- times RUNS (each (ifc_extract d) queries) (repeat 0%N 256); Ok lens.
(** benchmark_integer_fc_dictionary.cpp:40-60 main. [shuffle]: std::shuffle. *)
Definition bench_ifc (shuffle : list nat -> list nat) (fuel n : nat) (junk : N) (t : texts) : res (list (list (list nat))) :=
  do p <- M_Input.load (t_stats t);
  map_res (fun bucket =>
      do (recs, _) <- read_mapped_n fuel (N.to_nat (pa_comps p)) junk (t_mapped t);
      do d <- @ifc_build bucket (map snd recs);
      do _ <- @ifc_docid_to_lexid bucket (N.to_nat (pa_universe p)) (map (fun r => N.to_nat (fst r)) recs);
      @ifc_perf_test bucket d (shuffle (seq 0 n)))
    bench_sizes.

(** ** benchmark_locate_prefix.cpp *)
(** parse (autocomplete_common.hpp:13-28) with must_find_prefix, the result of which is ignored: what it leaves in prefix and suffix
    (benchmark_locate_prefix.cpp:79-82). *)
Definition parse_left_step (d : fcd) (s : list N * list N * list N) : res ((list N * list N * list N) + (list N * list N * list N)) :=
  let '(r, prefix, dec) := s in
  let '(suffix, r') := bri_next r in
  if negb (bri_has_next r') then Ok (inr (prefix, suffix, dec))
  else
    do (id, dec) <- fc_locate d suffix dec;
    match id with
    | Some i => Ok (inl (r', prefix ++ [N.of_nat i], dec))
    | None => Ok (inr (prefix, suffix, dec))
    end.
(** As above: benchmark_locate_prefix.cpp:79-82, autocomplete_common.hpp:13-28. *)
Definition parse_left (d : fcd) (query : list N) (dec : list N) : res (list N * list N * list N) :=
  loop (length query + 2) (parse_left_step d) (query, [], dec).
(** invalid_range (util_types.hpp:44) if there is no range. The range of locate_prefix counts the terms from 0 (benchmark_locate_prefix.cpp:83-84). *)
Definition bounds_of (r : option (nat * nat)) : N * N :=
  match r with Some (a, b) => (N.of_nat a, N.of_nat b) | None => (18446744073709551615, 18446744073709551615)%N end.
(** benchmark_locate_prefix.cpp:77-86: the queries. *)
Definition prefix_queries (d : fcd) (strings : list (list N)) : res (list (list N * (N * N))) :=
  do (qs, _) <- each (fun s bufs =>
      let '(dec, dl, dr) := bufs in
      do (prefix, suffix, dec) <- parse_left d s dec;
      do (r, dl, dr) <- fc_locate_prefix d suffix dl dr;
      Ok ((prefix, bounds_of r), (dec, dl, dr)))
    strings (repeat 0%N 256, repeat 0%N 256, repeat 0%N 256);
  Ok qs.
(** benchmark_locate_prefix.cpp:34-39 with integer_fc_dictionary<16>: locate_prefix may change query.first. *)
Fixpoint ifc_run (d : fcd) (qs : list (list N * (N * N))) (bufs : list N * list N)
  : res (list (option (nat * nat)) * list (list N * (N * N)) * (list N * list N)) :=
  match qs with
  | [] => Ok ([], [], bufs)
  | (prefix, (a, b)) :: qs' =>
      do (r, prefix, dl, dr) <- ifc_locate_prefix d prefix a b (fst bufs) (snd bufs);
      do (rs, qs', bufs) <- ifc_run d qs' (dl, dr);
      Ok (r :: rs, (prefix, (a, b)) :: qs', bufs)
  end.
(** As above: benchmark_locate_prefix.cpp:34-39. *)
Definition ifc_runs (d : fcd) (qs : list (list N * (N * N))) : res (list (list (option (nat * nat)))) :=
  do (rs, _) <- times RUNS (fun s => do (rs, qs, bufs) <- ifc_run d (fst s) (snd s); Ok (rs, (qs, bufs))) (qs, (repeat 0%N 128, repeat 0%N 128));
  Ok rs.
(** benchmark_locate_prefix.cpp:34-39 with completion_trie. For an invalid range the sums in find wrap around in C++; there is no such node either way. *)
Definition trie_runs (t : trie) (qs : list (list N * (N * N))) : res (list (list (option (nat * nat)))) :=
  do (rs, _) <- times RUNS (fun s : unit => do rs <- map_res (fun q => trie_locate_prefix t (fst q) (fst (snd q)) (snd (snd q))) qs; Ok (rs, s)) tt;
  Ok rs.
(** benchmark_locate_prefix.cpp:47-110 main. [m] / 2^[e] = percentage. *)
Definition bench_prefix (K : containers) (trie : bool) (fuel n : nat) (m e : N) (junk : N) (t : texts) (input : list N) : res (list (list (option (nat * nat)))) :=
  do p <- M_Input.load (t_stats t);
  do d <- fc_build (snd (read_words (N.to_nat (pa_terms p)) (open_file (t_dict t)) []));
  do strings <- load_queries n m e input;
  do qs <- prefix_queries d strings;
  if trie then
    do (recs, _) <- read_mapped fuel junk (t_mapped t);
    do ta <- trie_build (N.to_nat (pa_levels p)) (map (fun r => (N.to_nat (fst r), snd r)) recs);
    do x <- trie_store K ta;
    trie_runs x qs
  else
    do (recs, _) <- read_mapped_n fuel (N.to_nat (pa_comps p)) junk (t_mapped t);
    do x <- ifc_build (map snd recs);
    do _ <- ifc_docid_to_lexid (N.to_nat (pa_universe p)) (map (fun r => N.to_nat (fst r)) recs);
    ifc_runs x qs.
