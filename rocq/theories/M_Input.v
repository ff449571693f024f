(** Model of reading the input files: std::ifstream with operator>>, completion_iterator (util_types.hpp), and the loops over the files in
    the builders. No proofs. *)
From Verif Require Import Base M_Text M_Auto.
Local Open Scope nat_scope.

(** A stream: what is left of the file, eofbit, failbit. Opening a file that exists (the std::ifstream at fc_dictionary.hpp:31, util_types.hpp:230, inverted_index.hpp:25, parameters.hpp:19). *)
Record stream := { st_rest : list N; st_eof : bool; st_fail : bool }.
(** fc_dictionary.hpp:31, inverted_index.hpp:25, parameters.hpp:19: the constructor. *)
Definition open_file (text : list N) : stream := {| st_rest := text; st_eof := false; st_fail := false |}.
(** util_types.hpp:213, fc_dictionary.hpp:33. *)
Definition good (st : stream) : bool := negb (st_eof st) && negb (st_fail st).
(** completion_trie.hpp:43: while (input). *)
Definition failed (rest : list N) (eof : bool) : stream := {| st_rest := rest; st_eof := eof; st_fail := true |}.
(** the operator>> of util_types.hpp:233-238, inverted_index.hpp:38-47. *)
Definition is_nil {A} (l : list A) : bool := match l with [] => true | _ => false end.

(** the operator>> of util_types.hpp:233-238, inverted_index.hpp:38-47. *)
Fixpoint span_digits (s : list N) (v : N) : N * list N :=
  match s with b :: s' => if isdigit b then span_digits s' (10 * v + (b - 48)) else (v, s) | [] => (v, s) end.
(** the operator>> of util_types.hpp:233-238, inverted_index.hpp:38-47. *)
Fixpoint span_word (s : list N) : list N * list N :=
  match s with
  | b :: s' => if is_space b then ([], s) else let '(w, r) := span_word s' in (b :: w, r)
  | [] => ([], [])
  end.

(** input >> x, x of type uint32_t ([old]: its value before). The sentry skips white space; if the stream is not good or nothing follows, it fails and x
    keeps its value. Then a sign and decimal digits are read: without digits x = 0 and failbit; out of range x = 2^32-1 and failbit;
    negative values wrap (util_types.hpp:233, 237; inverted_index.hpp:38-47; parameters.hpp:24-28). *)
Definition in_u32 (st : stream) (old : N) : stream * N :=
  if good st then
    match skip_spaces (st_rest st) with
    | [] => (failed [] true, old)
    | b :: s' =>
        let '(neg, s) := if (b =? 45)%N then (true, s') else if (b =? 43)%N then (false, s') else (false, b :: s') in
        match s with
        | [] => (failed [] true, 0%N)
        | d :: _ =>
            if isdigit d then
              let '(v, r) := span_digits s 0 in
              if (v <? 4294967296)%N then
                ({| st_rest := r; st_eof := is_nil r; st_fail := false |}, if neg then ((4294967296 - v) mod 4294967296)%N else v)
              else (failed r (is_nil r), 4294967295%N)
            else (failed s false, 0%N)
        end
    end
  else (failed (st_rest st) (st_eof st), old).

(** input >> s, s of type std::string (fc_dictionary.hpp:42-49). *)
Definition in_string (st : stream) (old : list N) : stream * list N :=
  if good st then
    match skip_spaces (st_rest st) with
    | [] => (failed [] true, old)
    | s => let '(w, r) := span_word s in ({| st_rest := r; st_eof := is_nil r; st_fail := false |}, w)
    end
  else (failed (st_rest st) (st_eof st), old).

(** util_types.hpp:232-240 read_next. [fuel] bounds the loop; [doc]: m_val.doc_id. *)
Fixpoint read_ids (fuel : nat) (st : stream) (x : N) (acc : list N) : res (stream * list N) :=
  match fuel with
  | 0 => Fuel
  | S fuel =>
      if negb (st_eof st) && negb (x =? 0)%N then
        let '(st, x) := in_u32 st x in read_ids fuel st x (acc ++ [x])
      else Ok (st, acc)
  end.
(** As above: util_types.hpp:232-240. *)
Record citer := { ci_st : stream; ci_doc : N; ci_completion : list N }.
(** As above: util_types.hpp:232-240. *)
Definition read_next (fuel : nat) (st : stream) (doc : N) : res citer :=
  let '(st, doc) := in_u32 st doc in
  do (st, c) <- read_ids fuel st 4294967295 [];
  Ok {| ci_st := st; ci_doc := doc; ci_completion := c |}.

(** util_types.hpp:210-218 (the doc id is uninitialised before the first record: [junk]), 220-226. *)
Definition ci_open (fuel : nat) (junk : N) (st : stream) : res citer := if good st then read_next fuel st junk else Exn.
(** As above: util_types.hpp:210-218. *)
Definition ci_incr (fuel : nat) (it : citer) : res citer := read_next fuel (ci_st it) (ci_doc it).

(** completion_trie.hpp:38-79: while (input) { ... *it ... ++it ...}. The other reader, integer_fc_dictionary.hpp:36-61, takes num_completions
    records. *)
Fixpoint read_while (fuel f : nat) (it : citer) : res (list (N * list N) * citer) :=
  match f with
  | 0 => Fuel
  | S f =>
      if st_fail (ci_st it) then Ok ([], it)
      else do it' <- ci_incr fuel it; do (l, e) <- read_while fuel f it'; Ok ((ci_doc it, ci_completion it) :: l, e)
  end.
(** As above: completion_trie.hpp:38-79, integer_fc_dictionary.hpp:36-61. *)
Fixpoint read_count (fuel n : nat) (it : citer) : res (list (N * list N) * citer) :=
  match n with
  | 0 => Ok ([], it)
  | S n => do it' <- ci_incr fuel it; do (l, e) <- read_count fuel n it'; Ok ((ci_doc it, ci_completion it) :: l, e)
  end.
(** As above: completion_trie.hpp:38-79, integer_fc_dictionary.hpp:36-61. *)
Definition read_mapped (fuel : nat) (junk : N) (text : list N) : res (list (N * list N) * citer) :=
  do it <- ci_open fuel junk (open_file text); read_while fuel fuel it.
(** As above: completion_trie.hpp:38-79, integer_fc_dictionary.hpp:36-61. *)
Definition read_mapped_n (fuel n : nat) (junk : N) (text : list N) : res (list (N * list N) * citer) :=
  do it <- ci_open fuel junk (open_file text); read_count fuel n it.

(** inverted_index.hpp:35-49, blocked_inverted_index.hpp:58-72, compact_forward_index.hpp:26-39: [m] lists, each a length and that many
    numbers ([junk]: the uninitialised variable x). *)
Fixpoint read_values (n : nat) (st : stream) (junk : N) : stream * list N :=
  match n with
  | 0 => (st, [])
  | S n => let '(st, x) := in_u32 st junk in let '(st, l) := read_values n st junk in (st, x :: l)
  end.
(** As above: inverted_index.hpp:35-49, blocked_inverted_index.hpp:58-72, compact_forward_index.hpp:26-39. *)
Fixpoint read_lists (m : nat) (st : stream) (junk : N) : stream * list (list N) :=
  match m with
  | 0 => (st, [])
  | S m =>
      let '(st, n) := in_u32 st 0 in
      let '(st, l) := read_values (N.to_nat n) st junk in
      let '(st, ls) := read_lists m st junk in (st, l :: ls)
  end.

(** fc_dictionary.hpp:36-60: the words of .dict, num_terms of them (header and curr are strings declared outside the loop). *)
Fixpoint read_words (n : nat) (st : stream) (old : list N) : stream * list (list N) :=
  match n with
  | 0 => (st, [])
  | S n => let '(st, w) := in_string st old in let '(st, ws) := read_words n st w in (st, w :: ws)
  end.

(** parameters.hpp:18-52 load. *)
Record params := { pa_terms : N; pa_max_len : N; pa_comps : N; pa_universe : N; pa_levels : N; pa_nodes : list N }.
(** As above: parameters.hpp:18-52. *)
Fixpoint read_nodes (n : nat) (st : stream) : res (stream * list N) :=
  match n with
  | 0 => Ok (st, [])
  | S n =>
      if st_fail st then Exn
      else let '(st, x) := in_u32 st 0 in do (st, l) <- read_nodes n st; Ok (st, x :: l)
  end.
(** As above: parameters.hpp:18-52. *)
Definition load (text : list N) : res params :=
  let st := open_file text in
  let '(st, nt) := in_u32 st 0 in
  let '(st, ml) := in_u32 st 0 in
  let '(st, nc) := in_u32 st 0 in
  let '(st, u) := in_u32 st 0 in
  let '(st, nl) := in_u32 st 0 in
  if (128 <? ml)%N then Exn
  else if (64 <? nl)%N then Exn
  else
    do (st, nodes) <- read_nodes (N.to_nat nl) st;
    Ok {| pa_terms := nt; pa_max_len := ml; pa_comps := nc; pa_universe := u; pa_levels := nl; pa_nodes := nodes |}.

(** All the files of a collection, as the builders of the index types read them (each opens the files it needs; all start from the same
    parameters). [trie]: the completions are read until the end of the file (type 1) or by number (types 2 to 4) (parameters.hpp:18-52: the names of the files). *)
Record texts := { t_stats : list N; t_dict : list N; t_mapped : list N; t_inverted : list N; t_forward : list N }.
(** src/build.cpp:43-59. *)
Definition read_files (trie : bool) (fuel : nat) (junk : N) (t : texts) : res files :=
  do p <- load (t_stats t);
  do (recs, e) <- (if trie then read_mapped fuel junk (t_mapped t) else read_mapped_n fuel (N.to_nat (pa_comps p)) junk (t_mapped t));
  Ok {| f_dict := snd (read_words (N.to_nat (pa_terms p)) (open_file (t_dict t)) []);
        f_mapped := map (fun r => (N.to_nat (fst r), snd r)) recs;
        f_levels := N.to_nat (pa_levels p);
        f_universe := N.to_nat (pa_universe p);
        f_inverted := map (map N.to_nat) (snd (read_lists (N.to_nat (pa_terms p)) (open_file (t_inverted t)) junk));
        f_forward := snd (read_lists (N.to_nat (pa_universe p)) (open_file (t_forward t)) junk) |}.
