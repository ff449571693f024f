(** The template parameter BucketSize of the front-coded dictionaries. No proofs. *)
From Verif Require Import Base.

(** fc_dictionary.hpp:12 and integer_fc_dictionary.hpp:12: the parameter is a uint32_t; BucketSize = 0 is left out (no program
    uses it). The benchmark programs instantiate 4, 8, 16, 32, 64, 128 and 256 (benchmark_fc_dictionary.cpp:106). *)
Class bucket_size := { BUCKET : nat; bucket_pos : 0 < BUCKET }.

(** The default of the parameter, 16: what types.hpp uses (fc_dictionary.hpp:12, integer_fc_dictionary.hpp:12). *)
#[export] Instance default_bucket : bucket_size | 100 := {| BUCKET := 16; bucket_pos := Nat.lt_0_succ 15 |}.
