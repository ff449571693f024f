(** Specification: the bytes of the first strings of the buckets of a vocabulary, which a front-coded dictionary writes in full. *)
From Verif Require Import Base.
From Verif Require Export M_Bucket.
Definition firsts {B : bucket_size} (terms : list (list N)) : list (list N) :=
  map (fun b => nth (b * (BUCKET + 1)) terms []) (seq 0 ((length terms + BUCKET) / (BUCKET + 1))).
