(** Model of the four indexes as far as they agree: the string pool (scored_string_pool.hpp), the input
    files, and the common steps of queries. No proofs. *)
From Verif Require Import Base M_Heap M_Iter M_Fc M_IntFc M_Parse M_Trie M_TopK M_Intersect M_Containers.

(** constants.hpp:5. *)
Definition MAX_K : nat := 15.
(** constants.hpp:8. *)
Definition POOL_SIZE : nat := 15 * 128.

(** The files written by the scripts in test_data, as read by the builders (params.load() has succeeded,
    parameters.hpp:18-52). *)
Record files := {
  f_dict : list (list N);           (* .dict; num_terms = its length *)
  f_mapped : list (nat * list N);   (* .mapped; num_completions = its length *)
  f_levels : nat;                   (* num_levels *)
  f_universe : nat;                 (* universe *)
  f_inverted : list (list nat);     (* .inverted *)
  f_forward : list (list N)         (* .forward *)
}.

(** scored_string_pool.hpp:94-97: m_scores, m_offsets, m_data. *)
Record pool := { p_scores : list nat; p_offsets : list nat; p_data : list N }.

(** scored_string_pool.hpp:13-24 resize, clear + init (autocomplete.hpp:169-173 init()). *)
Definition pool_new : pool := {| p_scores := repeat 0 MAX_K; p_offsets := []; p_data := repeat 0%N POOL_SIZE |}.
(** As above: scored_string_pool.hpp:13-24, autocomplete.hpp:169-173. *)
Definition pool_init (p : pool) : pool := {| p_scores := p_scores p; p_offsets := [0]; p_data := p_data p |}.

(** scored_string_pool.hpp:31-33 bytes(): m_offsets.back(). *)
Definition pool_bytes (p : pool) : res nat := match p_offsets p with [] => UB | o => Ok (last o 0) end.

(** scored_string_pool.hpp:51-58 operator[], 61-88 iterator: what the caller sees, result by result. *)
Definition pool_get (p : pool) (i : nat) : res (nat * list N) :=
  do b <- get (p_offsets p) i;
  do e <- get (p_offsets p) (i + 1);
  do s <- slice (p_data p) b (e - b);
  do score <- get (p_scores p) i;
  Ok (score, s).
(** As above: scored_string_pool.hpp:51-58. *)
Definition pool_results (p : pool) : res (list (nat * list N)) :=
  match p_offsets p with
  | [] => UB
  | _ :: o => map_res (pool_get p) (seq 0 (length o))
  end.

(** The static buffers of fc_dictionary (fc_dictionary.hpp:303: one per member function using it). *)
Record dict_bufs := { db_locate : list N; db_left : list N; db_right : list N }.
(** As above: fc_dictionary.hpp:303. *)
Definition dict_bufs_new : dict_bufs :=
  {| db_locate := repeat 0%N 256; db_left := repeat 0%N 256; db_right := repeat 0%N 256 |}.

(** One completion of extract_strings: autocomplete.hpp:203-217 = autocomplete2.hpp:236-250: the terms
    [ids] are written to [data] from [offset] on, separated by spaces. [first] = (j == 0). *)
Fixpoint write_terms (d : fcd) (ids : list N) (offset : nat) (data : list N) : res (nat * list N) :=
  match ids with
  | [] => Ok (offset, data)
  | id :: ids' =>
      do (len, data) <- fc_extract d (N.to_nat id) data offset;
      (* uint8_t len *)
      let offset := offset + len mod 256 in
      match ids' with
      | [] => Ok (offset, data)
      | _ => do data <- set data offset SPACE; write_terms d ids' (offset + 1) data
      end
  end.

(** extract_strings: [term_ids i] are the terms of the i-th result (autocomplete.hpp:200-221, autocomplete2.hpp:232-254, autocomplete3.hpp:240-262, autocomplete4.hpp:265-287). *)
Fixpoint write_strings (d : fcd) (term_ids : nat -> res (list N)) (i n : nat) (p : pool) : res pool :=
  match n with
  | O => Ok p
  | S n' =>
      do ids <- term_ids i;
      do o <- pool_bytes p;
      do (o, data) <- write_terms d ids o (p_data p);
      write_strings d term_ids (i + 1) n'
        {| p_scores := p_scores p; p_offsets := p_offsets p ++ [o]; p_data := data |}
  end.

(** parse and locate_prefix of the last token, the first steps of all queries: autocomplete.hpp:41-52 and
    74-83. None: the query ends here with an empty result. The range is inclusive and 0-based. *)
Definition query_terms (d : fcd) (must_find_prefix : bool) (query : list N) (b : dict_bufs)
  : res (option (list nat * nat * nat) * dict_bufs) :=
  do (pr, dec) <- parse (list N) (fc_locate d) must_find_prefix query (db_locate b);
  match pr with
  | None => Ok (None, {| db_locate := dec; db_left := db_left b; db_right := db_right b |})
  | Some (prefix, suffix) =>
      do (r, dl, dr) <- fc_locate_prefix d suffix (db_left b) (db_right b);
      let b := {| db_locate := dec; db_left := dl; db_right := dr |} in
      match r with
      | None => Ok (None, b)
      | Some (x, y) => Ok (Some (prefix, x, y), b)
      end
  end.

(** A sequence of requests served by one index object: (conjunctive or prefix search, k, query); the results
    are read after every request (benchmark/benchmark_common.hpp:60-75, src/web_server.cpp:56-60: the callers of prefix_topk and conjunctive_topk). *)
Record request := { rq_conj : bool; rq_k : nat; rq_text : list N }.
(** benchmark/benchmark_common.hpp:60-75: one call after the other on the same object. *)
Fixpoint session {St} (run : request -> St -> res St) (results : St -> res (list (nat * list N)))
  (rs : list request) (s : St) : res (list (list (nat * list N)) * St) :=
  match rs with
  | [] => Ok ([], s)
  | r :: rs' =>
      do s <- run r s;
      do out <- results s;
      do (outs, s) <- session run results rs' s;
      Ok (out :: outs, s)
  end.
