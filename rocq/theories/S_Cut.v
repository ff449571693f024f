(** Specification: what is read from an index file that ends too early. *)
From Verif Require Import Base M_Cvec M_Save.
(** The words of a vector whose file was cut [m] bytes after its length. The words that were read completely are the saved ones;
    those of which no byte was read are as before loading (0 in a new vector). *)
Definition missing_words (saved old : list N) (m : nat) (got : list N) : Prop :=
  length got = length saved /\
  forall i, i < length saved -> (8 * (i + 1) <= m -> nth i got 0%N = nth i saved 0%N) /\ (m <= 8 * i -> nth i got 0%N = nth i old 0%N).
(** A compact vector with other words. *)
Definition cvec_with (v : cvec) (bits : list N) : cvec := {| cv_size := cv_size v; cv_width := cv_width v; cv_mask := cv_mask v; cv_bits := bits |}.
(** The first [n] bytes of the file of [x], loaded into [old]. [vec_of x] is the vector at the end of the file. If the file ends before
    the words of that vector: undefined behaviour. If it ends among them: no error, and [x] with other words in that vector. *)
Definition cut_file {A} (c : codec A) (old x : A) (vec_of : A -> cvec) (replaced : list N -> A) : Prop :=
  forall n, let file := save_file c x in let start := length file - 8 * length (cv_bits (vec_of x)) in
  (n < start -> load_file c old (firstn n file) = UB) /\
  (start <= n < length file ->
   exists got, load_file c old (firstn n file) = Ok (replaced got) /\ missing_words (cv_bits (vec_of x)) (cv_bits (vec_of old)) (n - start) got) /\
  (length file <= n -> load_file c old (firstn n file) = Ok x).
