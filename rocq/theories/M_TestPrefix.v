(** Model of the test program test/test_locate_prefix.cpp. [Ok false]: a CHECK or REQUIRE fails; [Ok true]: the test passes. The text of the messages is left out.
    No proofs. *)
From Verif Require Import Base M_Fc M_IntFc M_Trie M_Containers M_Input M_Tools M_EfSeq M_Save M_Stored M_BenchDict M_Tests.
Local Open Scope nat_scope.

(** line.substr(line.find(' ') + 1, line.size()): find returns 2^64 - 1 if there is no space (test_locate_prefix.cpp:52). *)
Definition after_space (line : list N) : list N :=
  (fix cut l := match l with [] => line | x :: l' => if (x =? 32)%N then l' else cut l' end) line.
(** x += 1 on a uint64_t (test_locate_prefix.cpp:18-19). *)
Definition plus_one (x : N) : N := ((x + 1) mod 18446744073709551616)%N.
(** test_locate_prefix.cpp:12-22, for one query. [find]: locate_prefix of the index, with its static buffers [St]. parse is called with must_find_prefix and its
    result is ignored. *)
Definition check_query {St} (find : list N -> N -> N -> St -> res (option (nat * nat) * St)) (d : fcd) (strings : list (list N)) (query : list N)
    (s : (list N * list N * list N) * St) : res (bool * ((list N * list N * list N) * St)) :=
  let '((dec, dl, dr), s) := s in
  do (b, e) <- test_range strings query;
  do (prefix, suffix, dec) <- parse_left d query dec;
  do (r, dl, dr) <- fc_locate_prefix d suffix dl dr;
  do (got, s) <- find prefix (plus_one (fst (bounds_of r))) (plus_one (snd (bounds_of r))) s;
  Ok ((fst (bounds_of got) =? N.of_nat b)%N && (snd (bounds_of got) =? N.of_nat e)%N, ((dec, dl, dr), s)).
(** test_locate_prefix.cpp:7-28 test_locate_prefix. A failed CHECK does not end the test case. *)
Definition check_queries {St} (find : list N -> N -> N -> St -> res (option (nat * nat) * St)) (d : fcd) (strings queries : list (list N))
    (s : (list N * list N * list N) * St) : res (bool * ((list N * list N * list N) * St)) :=
  do (bs, s) <- each (check_query find d strings) queries s; Ok (forallb (fun b => b) bs, s).
(** The completion trie as an index: no static buffers (test_locate_prefix.cpp:97). *)
Definition find_trie (x : trie) (prefix : list N) (a b : N) (s : unit) : res (option (nat * nat) * unit) :=
  do r <- trie_locate_prefix x prefix a b; Ok (r, s).
(** The integer dictionary as an index; the vector prefix, which locate_prefix may change, is not used again (test_locate_prefix.cpp:98). *)
Definition find_dict (x : fcd) (prefix : list N) (a b : N) (s : list N * list N) : res (option (nat * nat) * (list N * list N)) :=
  do (r, _, dl, dr) <- ifc_locate_prefix x prefix a b (fst s) (snd s); Ok (r, (dl, dr)).

(** The percentages m / 2^e (test_locate_prefix.cpp:61) and the numbers of terms (test_locate_prefix.cpp:62), in the order of the loops (test_locate_prefix.cpp:79-80). *)
Definition prefix_rounds : list ((N * N) * nat) := list_prod [(0, 0); (1, 2); (1, 1); (3, 2); (1, 0)]%N [1; 2; 3; 4; 5; 6; 7].
(** test_locate_prefix.cpp:79-100. [files n]: the file .queries/queries.length=n, [None] if it cannot be opened; the test then ends. State: the static buffers of the
    dictionaries. *)
Fixpoint check_rounds (max : nat) (files : nat -> option (list N)) (d : fcd) (strings : list (list N)) (x : trie) (y : fcd) (rounds : list ((N * N) * nat))
    (s : (list N * list N * list N) * (list N * list N)) : res bool :=
  match rounds with
  | [] => Ok true
  | ((m, e), n) :: rounds' =>
      match files n with
      | None => Ok true
      | Some file =>
          do queries <- load_queries max m e file;
          do (b1, s1) <- check_queries (find_trie x) d strings queries (fst s, tt);
          do (b2, s2) <- check_queries (find_dict y) d strings queries (fst s1, snd s);
          do b <- check_rounds max files d strings x y rounds' s2;
          Ok (b1 && b2 && b)
      end
  end.
(** test_locate_prefix.cpp:59. *)
Definition max_num_queries : nat := N.to_nat 5000.
(** test_locate_prefix.cpp:30-101. [input]: the file of the collection itself. *)
Definition test_prefix (fuel : nat) (junk : N) (t : texts) (input : list N) (files : nat -> option (list N)) : res bool :=
  do p <- M_Input.load (t_stats t);
  do d <- fc_build (snd (read_words (N.to_nat (pa_terms p)) (open_file (t_dict t)) []));
  do strings <- each_line (fun line l => Ok (l ++ [after_space line])) (N.to_nat (pa_comps p)) (open_file input) [] [];
  do (recs, _) <- read_mapped fuel junk (t_mapped t);
  do ta <- trie_build (N.to_nat (pa_levels p)) (map (fun r => (N.to_nat (fst r), snd r)) recs);
  do x <- trie_store_d (N.to_nat (pa_comps p)) ta;
  if (N.of_nat (td_size x) =? pa_comps p)%N then
    do (recs, _) <- read_mapped_n fuel (N.to_nat (pa_comps p)) junk (t_mapped t);
    do y <- ifc_build (map snd recs);
    do _ <- ifc_docid_to_lexid (N.to_nat (pa_universe p)) (map (fun r => N.to_nat (fst r)) recs);
    if (N.of_nat (fc_size y) =? pa_comps p)%N then
      check_rounds max_num_queries files d strings (trie_of x) y prefix_rounds
        ((repeat 0%N 256, repeat 0%N 256, repeat 0%N 256), (repeat 0%N 128, repeat 0%N 128))
    else Ok false
  else Ok false.
