(** Model of the test programs test/test_fc_dictionary.cpp, test_integer_fc_dictionary.cpp and test_completion_trie.cpp. A failed REQUIRE ends the test case: [Ok false];
    [Ok true]: the test passes. The text of the messages is left out. No proofs. *)
From Verif Require Import Base M_Compare M_Fc M_IntFc M_Trie M_Containers M_Input M_EfSeq M_Save M_Stored M_BenchDict.
Local Open Scope nat_scope.

(** for (auto const& x : l) { ... REQUIRE ... }, with static buffers as a state (test_fc_dictionary.cpp:42-61, 66-88, test_integer_fc_dictionary.cpp:30-58,
    test_completion_trie.cpp:28-32). *)
Fixpoint all_pass {A St} (f : A -> St -> res (bool * St)) (l : list A) (s : St) : res (bool * St) :=
  match l with
  | [] => Ok (true, s)
  | x :: l' => do (b, s) <- f x s; if b : bool then all_pass f l' s else Ok (false, s)
  end.
(** Comparing n elements one by one (test_fc_dictionary.cpp:56-60, test_integer_fc_dictionary.cpp:42-49). *)
Fixpoint same_values (l m : list N) : bool :=
  match l, m with
  | [], [] => true
  | x :: l', y :: m' => (x =? y)%N && same_values l' m'
  | _, _ => false
  end.

(** ** test_common.hpp *)
(** std::string operator< (test_common.hpp:22-24). *)
Fixpoint string_less (l r : list N) : bool :=
  match l, r with
  | _, [] => false
  | [], _ :: _ => true
  | x :: l', y :: r' => if (x <? y)%N then true else if (y <? x)%N then false else string_less l' r'
  end.
(** std::lower_bound and, with the negated comparison, std::upper_bound: the first element that does not satisfy [p]; undefined if an element after it does
    (test_common.hpp:22-24, 46-52). *)
Fixpoint partition_point {A} (p : A -> bool) (l : list A) : res nat :=
  match l with
  | [] => Ok 0
  | x :: l' => if p x then do n <- partition_point p l'; Ok (n + 1) else if existsb p l' then UB else Ok 0
  end.
(** test_common.hpp:21-25 locate. *)
Definition test_locate (terms : list (list N)) (t : list N) : res nat := do n <- partition_point (fun x => string_less x t) terms; Ok (n + 1).
(** libc strcmp on c_str() (test_common.hpp:33, 40). *)
Definition strcmp (l r : list N) : Z := strncmp (l ++ [0%N]) (r ++ [0%N]) (length l + 1).
(** test_common.hpp:29-34 comp_l. *)
Definition comp_l (l r : list N) : bool := if length l <? length r then (strncmp l r (length l) <=? 0)%Z else (strcmp l r <? 0)%Z.
(** test_common.hpp:36-41 comp_r. *)
Definition comp_r (l r : list N) : bool := if length l <? length r then (strncmp l r (length l) <? 0)%Z else (strcmp l r <? 0)%Z.
(** test_common.hpp:27-55 locate_prefix. *)
Definition test_range (strings : list (list N)) (p : list N) : res (nat * nat) :=
  do b <- partition_point (fun x => comp_l x p) strings;
  do e <- partition_point (fun x => negb (comp_r p x)) strings;
  Ok (b, e).

(** ** test_fc_dictionary.cpp *)
(** input >> term; while (input) { terms.push_back(term); input >> term; } (test_fc_dictionary.cpp:33-37). *)
Fixpoint read_rest (fuel : nat) (st : stream) (old : list N) : res (list (list N)) :=
  match fuel with
  | 0 => Fuel
  | S fuel =>
      let '(st, w) := in_string st old in
      if st_fail st then Ok [] else do ws <- read_rest fuel st w; Ok (w :: ws)
  end.
(** test_fc_dictionary.cpp:42-61: locate and extract. State: the static buffer of locate and the vector decoded. string_len is a uint8_t. *)
Definition check_term (d : fcd) (terms : list (list N)) (t : list N) (s : list N * list N) : res (bool * (list N * list N)) :=
  let '(dec, out) := s in
  do expected <- test_locate terms t;
  do (got, dec) <- fc_locate d t dec;
  if id_value got =? expected then
    do (n, out) <- fc_extract d (id_value got) out 0;
    let len := n mod 256 in
    if len =? length t then do chars <- slice out 0 len; Ok (same_values t chars, (dec, out)) else Ok (false, (dec, out))
  else Ok (false, (dec, out)).
(** test_fc_dictionary.cpp:66-88: locate_prefix of one prefix. State: the static buffers. The bounds are uint64_t. *)
Definition check_prefix (d : fcd) (terms : list (list N)) (p : list N) (s : list N * list N) : res (bool * (list N * list N)) :=
  let '(dl, dr) := s in
  do (b, e) <- test_range terms p;
  do (got, dl, dr) <- fc_locate_prefix d p dl dr;
  Ok ((fst (bounds_of got) =? N.of_nat b)%N && (snd (bounds_of got) =? (N.of_nat e + 18446744073709551615) mod 18446744073709551616)%N, (dl, dr)).
(** test_fc_dictionary.cpp:5-92. [old]: what is in the object before it is loaded. *)
Definition test_fc (old : fcd) (fuel : nat) (t : texts) : res bool :=
  do p <- M_Input.load (t_stats t);
  do d <- fc_build (snd (read_words (N.to_nat (pa_terms p)) (open_file (t_dict t)) []));
  do d <- load_file visit_dict old (save_file visit_dict d);
  do terms <- read_rest fuel (open_file (t_dict t)) [];
  do (b, _) <- all_pass (check_term d terms) terms (repeat 0%N 256, repeat 0%N 256);
  if b : bool then
    do (b, _) <- all_pass (fun t => all_pass (fun n => check_prefix d terms (firstn n t)) (seq 1 (length t))) terms (repeat 0%N 256, repeat 0%N 256);
    Ok b
  else Ok false.

(** ** test_integer_fc_dictionary.cpp *)
(** test_integer_fc_dictionary.cpp:30-58: one completion (with the 0 that ends it). State: the static buffer of locate and the vector decoded. *)
Definition check_completion (d : fcd) (x : nat * list N) (s : list N * list N) : res (bool * (list N * list N)) :=
  let '(dec, out) := s in
  let '(id, expected) := x in
  if length expected =? 0 then Ok (false, s)
  else
    do (n, out) <- ifc_extract d id out;
    let size := n mod 256 in
    if length expected - 1 =? size then
      do got <- slice out 0 size;
      if same_values got (firstn size expected) then
        do (i, dec) <- ifc_locate d got dec;
        match i with
        | Some i => Ok (i =? id, (dec, out))
        | None => Ok (false, (dec, out))
        end
      else Ok (false, (dec, out))
    else Ok (false, (dec, out)).
(** test_integer_fc_dictionary.cpp:5-63. The builder also maps doc ids to positions (integer_fc_dictionary.hpp:63-77). *)
Definition test_ifc (old : fcd) (fuel : nat) (junk : N) (t : texts) : res bool :=
  do p <- M_Input.load (t_stats t);
  do (recs, _) <- read_mapped_n fuel (N.to_nat (pa_comps p)) junk (t_mapped t);
  do d <- ifc_build (map snd recs);
  do _ <- ifc_docid_to_lexid (N.to_nat (pa_universe p)) (map (fun r => N.to_nat (fst r)) recs);
  do d <- load_file visit_idict old (save_file visit_idict d);
  do (recs, _) <- read_mapped_n fuel (N.to_nat (pa_comps p)) junk (t_mapped t);
  do (b, _) <- all_pass (check_completion d) (combine (seq 0 (N.to_nat (pa_comps p))) (map snd recs)) (repeat 0%N 128, repeat 0%N 128);
  Ok b.

(** ** test_completion_trie.cpp *)
(** test_completion_trie.cpp:7-36. [fresh]: the new elements of a vector of ef_sequences when it is loaded. *)
Definition test_trie (fresh : efs) (old : trie_d) (fuel : nat) (junk : N) (t : texts) : res bool :=
  do p <- M_Input.load (t_stats t);
  do (recs, _) <- read_mapped fuel junk (t_mapped t);
  do ta <- trie_build (N.to_nat (pa_levels p)) (map (fun r => (N.to_nat (fst r), snd r)) recs);
  do d <- trie_store_d (N.to_nat (pa_comps p)) ta;
  if (N.of_nat (td_size d) =? pa_comps p)%N then
    do d <- load_file (visit_trie fresh) old (save_file (visit_trie fresh) d);
    if (N.of_nat (td_size d) =? pa_comps p)%N then
      do (recs, _) <- read_mapped fuel junk (t_mapped t);
      do (b, _) <- all_pass (fun c (s : unit) => do b <- trie_is_member (trie_of d) c; Ok (b, s)) (map snd recs) tt;
      Ok b
    else Ok false
  else Ok false.
