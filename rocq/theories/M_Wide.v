(** Model of the 32-bit pointers of include/fc_dictionary.hpp, which [M_Fc] leaves unbounded. No proofs. *)
From Verif Require Import Base M_Fc.

Section Bucket.
  Context {bucket : bucket_size}.

(** fc_dictionary.hpp:45, 59: a size_t pushed to a std::vector<uint32_t> (93-94), then copied to a uint_vec<uint32_t>
    (uint_vec.hpp:11-15). *)
Definition wrap32 (n : nat) : nat := N.to_nat (N.of_nat n mod 4294967296).

(** fc_dictionary.hpp:17-72 builder(params), 82-89 build(d). *)
Definition fc_build32 (terms : list (list N)) : res fcd :=
  do d <- fc_build terms;
  Ok (Fcd (fc_size d) (map wrap32 (fc_ph d)) (map wrap32 (fc_pb d)) (fc_hdrs d) (fc_bkts d)).

(** fc_dictionary.hpp:174-179 header(i), for a caller that reads its bytes: a range whose end lies before its begin has
    h.end - h.begin = 2^64 - something bytes, which nothing can hold. *)
Definition fc_header32 (d : fcd) (i : nat) : res (list N) :=
  do b <- get (fc_ph d) i;
  do e <- get (fc_ph d) (i + 1);
  if e <? b then UB else slice (fc_hdrs d) b (e - b).

(** fc_dictionary.hpp:151-157 and 329-342 extract(id, out): memcpy of the header, then the strings of the bucket. *)
Definition fc_extract32 (d : fcd) (id : nat) (out : list N) (base : nat) : res (nat * list N) :=
  match id with
  | O => UB
  | S i =>
      let bucket_id := i / (BUCKET + 1) in
      do h <- fc_header32 d bucket_id;
      do out' <- blit out base h;
      do cur <- get (fc_pb d) bucket_id;
      fc_extract_loop (fc_decode (fc_bkts d)) 1 (i mod (BUCKET + 1)) cur (length h mod 256) out' base
  end.
End Bucket.
