(** Specification: what the benchmark programs of the dictionaries measure (C62, C63, C64). *)
From Verif Require Import Base S_Order S_Vocab S_Completions S_Parse M_BenchDict.
Local Open Scope nat_scope.

(** The first quarter, half, ... of a query (rounded down), but at least one character. *)
Definition part (quarters : nat) (q : list N) : list N := firstn (Nat.max 1 (length q * quarters / 4)) q.
(** The last minus the first position of the terms found for a prefix (0 if none is found). *)
Definition range_width {B : bucket_size} (terms : list (list N)) (p : list N) (w : nat) : Prop :=
  (exists a b, exact_range (length (stored terms)) (fun i => found_by (nth 0 terms []) p (nth i terms [])) a b /\ w = b - a) \/
  ((forall i, i < length (stored terms) -> ~ found_by (nth 0 terms []) p (nth i terms [])) /\ w = 0).
(** [id] is the number (from 1) of the term [q]. *)
Definition number_of (terms : list (list N)) (q : list N) (id : option nat) : Prop := exists i, id = Some (i + 1) /\ nth_error terms i = Some q.
(** Each of five runs has for every query its result. *)
Definition five_runs {A R} (P : A -> R -> Prop) (queries : list A) (runs : list (list R)) : Prop := length runs = 5 /\ Forall (Forall2 P queries) runs.
(** What benchmark_fc_dictionary measures for one bucket size: the numbers of the queries, their lengths, and the widths of the ranges for the parts of each. *)
Definition measured {B : bucket_size} (terms queries : list (list N)) (o : fc_perf) : Prop :=
  five_runs (number_of (stored terms)) queries (fp_locate o) /\ five_runs (fun q n => n = length q) queries (fp_extract o) /\
  Forall2 (fun p runs => five_runs (fun q w => range_width terms (part p q) w) queries runs) [0; 1; 2; 3; 4] (fp_prefix o).

(** The search for the completions that continue [prefix] with a term from [a] to [b], repeated: [rs] are the results. If the integer dictionary finds
    nothing and a = b, the next search is for one term more. *)
Inductive searches (found : list N -> N -> N -> option (nat * nat) -> Prop) (a b : N) : list N -> list (option (nat * nat)) -> Prop :=
| searches_end prefix : searches found a b prefix []
| searches_next prefix r rs : found prefix a b r -> searches found a b (match r with None => if (a =? b)%N then prefix ++ [(a mod 4294967296)%N] else prefix | Some _ => prefix end) rs ->
    searches found a b prefix (r :: rs).

(** What is looked up for a query: [prefix] are the numbers (from 1) of its tokens up to the last one or up to the first one that is not a term, [suffix] is
    that token. *)
Definition looked_up (terms : list (list N)) (q : list N) (prefix : list N) (suffix : list N) : Prop :=
  exists ts last k, query_split q ts last /\ Forall2 (fun t x => exists i, x = N.of_nat (i + 1) /\ nth_error terms i = Some t) (firstn k ts) prefix /\
    ((k = length ts /\ suffix = last) \/ (nth_error ts k = Some suffix /\ ~ In suffix terms)).
(** [a] and [b] are the positions from 0 (so one less than the numbers) of the first and last term found for [suffix], or 2^64 - 1 if none is found. *)
Definition asks {B : bucket_size} (terms : list (list N)) (q : list N) (prefix : list N) (a b : N) : Prop :=
  exists suffix, looked_up (stored terms) q prefix suffix /\
    ((suffix = [] /\ a = 0%N /\ b = N.of_nat (length terms - 1)) \/
     (suffix <> [] /\ exists i j, exact_range (length (stored terms)) (fun k => found_by (nth 0 terms []) suffix (nth k terms [])) i j /\ a = N.of_nat i /\ b = N.of_nat j) \/
     (suffix <> [] /\ (forall k, k < length (stored terms) -> ~ found_by (nth 0 terms []) suffix (nth k terms [])) /\
      a = 18446744073709551615%N /\ b = 18446744073709551615%N)).
(** The completions found: all that have [prefix] and then a number from [a] to [b], the 0 at the end included (trie) ... *)
Definition found_in_trie (cs : list (list N)) (prefix : list N) (a b : N) (r : option (nat * nat)) : Prop :=
  match r with
  | Some (x, y) => exact_range_excl (length cs) (fun i => continues prefix a b (terminated (nth i cs []))) x y
  | None => forall i, i < length cs -> ~ continues prefix a b (terminated (nth i cs []))
  end.
(** ... or, modulo 2^32, by the integer dictionary. *)
Definition found_in_dict {B : bucket_size} (cs : list (list N)) (prefix : list N) (a b : N) (r : option (nat * nat)) : Prop :=
  match r with
  | Some (x, y) => exact_range_excl (length (stored cs)) (fun i => continues_found (nth 0 cs []) prefix (a mod 4294967296) (b mod 4294967296) (nth i cs [])) x y
  | None => forall i, i < length (stored cs) -> ~ continues_found (nth 0 cs []) prefix (a mod 4294967296) (b mod 4294967296) (nth i cs [])
  end.
(** The results for one query in the order of the runs. *)
Definition column {A} (j : nat) (runs : list (list (option A))) : list (option A) := map (fun run => nth j run None) runs.
