(** Model of the programs around the index: src/map_queries.cpp, src/output_ds2i_format.cpp and load_queries in benchmark/benchmark_common.hpp. The
    assertions are not compiled (CMakeLists.txt:9-12). No proofs. *)
From Verif Require Import Base M_Parse M_Fc M_Input M_Prep M_Save.
Local Open Scope nat_scope.

(** std::getline(is, s): the bytes up to the next newline, which is taken but not stored, or to the end of the stream; if there is nothing to take, it
    fails (src/map_queries.cpp:43, benchmark/benchmark_common.hpp:23). *)
Fixpoint span_line (s : list N) : list N * option (list N) :=
  match s with
  | [] => ([], None)
  | b :: s' => if (b =? 10)%N then ([], Some s') else let '(l, r) := span_line s' in (b :: l, r)
  end.
(** src/map_queries.cpp:43, benchmark/benchmark_common.hpp:23. *)
Definition getline (st : stream) (old : list N) : stream * list N :=
  if good st then
    match st_rest st with
    | [] => (failed [] true, [])
    | s =>
        let '(l, r) := span_line s in
        (match r with
         | Some r => {| st_rest := r; st_eof := false; st_fail := false |}
         | None => {| st_rest := []; st_eof := true; st_fail := false |}
         end, l)
    end
  else (failed (st_rest st) (st_eof st), old).
(** src/map_queries.cpp:42-50, benchmark_common.hpp:22-23: for (i = 0; i != n; ++i) { if (!std::getline(is, query)) break; ... }. *)
Fixpoint each_line {A} (body : list N -> A -> res A) (n : nat) (st : stream) (query : list N) (a : A) : res A :=
  match n with
  | 0 => Ok a
  | S n =>
      let '(st, query) := getline st query in
      if st_fail st then Ok a else do a <- body query a; each_line body n st query a
  end.

(** ** src/map_queries.cpp *)
(** src/map_queries.cpp:7-19 parse. [dec]: the static buffer of locate. term_id - 1 for invalid_term_id = 2^32 - 1 is 2^32 - 2. *)
Fixpoint map_terms (fuel : nat) (d : fcd) (r : list N) (dec : list N) (completion : list N) : res (list N * list N) :=
  match fuel with
  | 0 => Fuel
  | S fuel =>
      if bri_has_next r then
        let '(term, r) := bri_next r in
        do (id, dec) <- fc_locate d term dec;
        map_terms fuel d r dec (completion ++ [match id with Some i => (N.of_nat i - 1)%N | None => 4294967294%N end])
      else Ok (completion, dec)
  end.
(** src/map_queries.cpp:45-49: the line on the error stream. front() of an empty vector is undefined. *)
Definition map_line (d : fcd) (query : list N) (s : list N * list N) : res (list N * list N) :=
  let '(out, dec) := s in
  do (completion, dec) <- map_terms (length query + 1) d query dec [];
  match completion with
  | [] => UB
  | x :: xs => Ok (out ++ str x ++ flat_map (fun y => 9%N :: str y) xs ++ [10%N], dec)
  end.
(** src/map_queries.cpp:21-53 main: what is written to the error stream. *)
Definition map_queries (n : nat) (t : texts) (queries : list N) : res (list N) :=
  do p <- M_Input.load (t_stats t);
  do d <- fc_build (snd (read_words (N.to_nat (pa_terms p)) (open_file (t_dict t)) []));
  do (out, dec) <- each_line (map_line d) n (open_file queries) [] ([], repeat 0%N 256);
  Ok out.

(** ** src/output_ds2i_format.cpp *)
(** A vector of uint32_t written as the bytes in memory (src/output_ds2i_format.cpp:20-60). *)
Definition write_u32s (l : list N) : list N := flat_map (save u32) l.
(** src/output_ds2i_format.cpp:9-66: the files .docs and .freqs. *)
Definition ds2i (t : texts) (junk : N) : res (list N * list N) :=
  do p <- M_Input.load (t_stats t);
  let lists := snd (read_lists (N.to_nat (pa_terms p)) (open_file (t_inverted t)) junk) in
  Ok (write_u32s [1%N; pa_universe p] ++ flat_map (fun l => write_u32s [N.of_nat (length l)] ++ write_u32s l) lists,
      flat_map (fun l => write_u32s [N.of_nat (length l)] ++ write_u32s (map (fun _ => 1%N) l)) lists).

(** ** load_queries *)
(** The non-negative integer [x] rounded to a float (24 significant bits, to nearest, ties to even) (benchmark/benchmark_common.hpp:28). *)
Definition rnd24 (x : N) : N :=
  let s := (N.size x - 24)%N in
  if (s =? 0)%N then x
  else
    let q := (x / 2 ^ s)%N in
    let r := (x mod 2 ^ s)%N in
    let up := if (2 * r <? 2 ^ s)%N then false else if (2 ^ s <? 2 * r)%N then true else N.odd q in
    ((if up then q + 1 else q) * 2 ^ s)%N.
(** benchmark_common.hpp:26: while (size > 0 and query[size] != ' ') --size. *)
Fixpoint back (query : list N) (size : nat) : nat :=
  match size with
  | 0 => 0
  | S s => if (nth size query 0 =? 32)%N then size else back query s
  end.
(** benchmark_common.hpp:25-30, for a query that is not empty and percentage = m / 2^e, m < 2^24. The product of a size_t and a float, its ceiling
    and the sums that follow are floats; rounding the product of integers before dividing by 2^e is exact scaling (a product that is too small to be a
    normal float has less than 24 significant bits). *)
Definition trim (m : N) (e : N) (query : list N) : list N :=
  let size := back query (length query - 1) in
  let last_token_size := length query - size in
  let product := rnd24 (rnd24 (N.of_nat last_token_size) * m) in
  let ceil := ((product + (2 ^ e - 1)) / 2 ^ e)%N in
  let end_ := rnd24 (rnd24 (rnd24 (rnd24 (N.of_nat size) + ceil) + 1) + 1) in
  firstn (N.to_nat end_) query.
(** benchmark_common.hpp:17-35. For an empty line size is 2^64 - 1 and query[size] is outside of the string. *)
Definition load_queries (max : nat) (m e : N) (is : list N) : res (list (list N)) :=
  each_line (fun query queries => match query with [] => UB | _ => Ok (queries ++ [trim m e query]) end) max (open_file is) [] [].
