(** Specification: well-formed vocabularies and the meaning of dictionary queries. *)
From Verif Require Import Base S_Order.
From Verif Require Export M_Bucket.

(** A vocabulary as produced by the preprocessing scripts (test_data/extract_dict.py):
    strictly sorted, no empty term, no NUL byte, at most MAX_NUM_CHARS_PER_QUERY bytes. *)
Definition wf_term (t : list N) : Prop := nul_free t /\ 0 < length t <= 128.

Definition wf_vocab (terms : list (list N)) : Prop :=
  lex_sorted terms /\ terms <> [] /\ Forall wf_term terms.

(** The builder drops the last BucketSize strings when the number of strings is a multiple
    of BucketSize + 1 (finding F23; 17 for the default bucket size); positive theorems exclude that case. *)
Definition not_multiple {B : bucket_size} (n : nat) : Prop := n mod (BUCKET + 1) <> 0.
Notation not_multiple_of_17 := (@not_multiple default_bucket).

(** [a..b] (inclusive) are exactly the indices of the terms that satisfy [P]. *)
Definition exact_range (n : nat) (P : nat -> Prop) (a b : nat) : Prop :=
  a <= b < n /\ forall i, i < n -> (a <= i <= b <-> P i).

(** A string that starts with [p], except that the first string of the dictionary ([first]) is found only by the empty
    prefix and by itself (F1). *)
Definition found_by (first p t : list N) : Prop := is_prefix p t /\ (t = first -> p = [] \/ t = p).

(** The strings a front-coded dictionary stores: all of them, except that the last BucketSize are lost when their
    number is a multiple of BucketSize + 1 (F23). *)
Definition stored {B : bucket_size} {A} (l : list A) : list A :=
  if length l mod (BUCKET + 1) =? 0 then firstn (length l - BUCKET) l else l.
