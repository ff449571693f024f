(** Model of test_data/filter_and_preprocess.sh: partition_queries_by_length.py chooses completions as queries, filter_dataset.py takes them out of
    the input, and the rest is preprocessed. No proofs. *)
From Verif Require Import Base S_Python M_Input M_Prep.
Local Open Scope nat_scope.
Section Python.
Context {py : python}.

(** test_data/partition_queries_by_length.py:20-27: which of the lists (0 to 5: strings, 6: all_others_strings). l = len(x) - 1; for a line with
    fewer than two columns l - 1 is negative and counts from the end. *)
Definition shard (x : list (list N)) : nat :=
  match length x with
  | 0 => 4
  | 1 => 5
  | S l => if 6 <? l then 6 else l - 1
  end.
(** test_data/partition_queries_by_length.py:22. *)
Definition query_line (x : list (list N)) : list N := join_space (tl x) ++ NL.
(** test_data/partition_queries_by_length.py:14-29. *)
Definition query_lists (input : list N) : list (list (list N)) :=
  fold_left (fun strings line => let x := columns line in upd strings (shard x) (nth (shard x) strings [] ++ [query_line x])) (read_lines input) (repeat [] 7).
(** test_data/partition_queries_by_length.py:31-40: the seven files. [shuffle i] is what random.shuffle does in its i-th call. *)
Definition partition_queries (shuffle : nat -> list (list N) -> list (list N)) (n : nat) (input : list N) : list (list N) :=
  map (fun i => concat (firstn n (shuffle i (nth i (query_lists input) [])))) (seq 0 7).

(** test_data/filter_dataset.py:7-17. *)
Definition to_filter (files : list (list N)) : list (list N) :=
  fold_left (fun s file => fold_left (fun s line => set_add str_eqb s (rstrip line)) (read_lines file) s) files [].
(** test_data/filter_dataset.py:23-31: .filtered. Line 2 imports the module sets, which Python 3 does not have. *)
Definition filter_dataset (input : list N) (files : list (list N)) : res (list N) :=
  match py with
  | py2 => let s := to_filter files in Ok (concat (filter (fun line => negb (existsb (str_eqb (join_space (tl (columns line)))) s)) (read_lines input)))
  | py3 => Exn
  end.
(** test_data/filter_and_preprocess.sh: the files with the queries and those of the collection. Simplification: a script that fails ends it (the
    scripts after it do not find their input) (test_data/filter_and_preprocess.sh:9-14). *)
Definition filter_and_preprocess (shuffle : nat -> list (list N) -> list (list N)) (n : nat) (input : list N) : res (list (list N) * texts) :=
  let files := partition_queries shuffle n input in
  do filtered <- filter_dataset input files;
  do t <- preprocess filtered;
  Ok (files, t).
End Python.
