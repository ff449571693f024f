(** Specification: collections whose dictionary fc_dictionary can hold: characters are bytes, and the headers and buckets
    (every term at most once, with two length bytes) stay below 4 GiB, because the pointers to them are uint32. *)
From Verif Require Import Base S_Collection.
Definition small_dict (c : collection) : Prop :=
  Forall (Forall (fun x => (x < 256)%N)) (terms c) /\ (N.of_nat (length (concat (terms c)) + 2 * length (terms c)) < 4294967296)%N.
