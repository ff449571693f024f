(** Model of include/integer_codes.hpp and of push_pad / eat_pad (building_util.hpp:20-36). No proofs. *)
From Verif Require Import Base M_Word M_Bits S_Codes.
Local Open Scope N_scope.

(** integer_codes.hpp:8-14. *)
Definition write_gamma (b : bvb) (n : N) : res bvb :=
  let nn := wadd n 1 in
  do l <- msb nn;
  do hb <- shl 1 l;
  do b <- bvb_append_bits b hb (l + 1);
  bvb_append_bits b (N.lxor nn hb) l.
(** integer_codes.hpp:16-19; the assertion is off. *)
Definition write_gamma_nonzero (b : bvb) (n : N) : res bvb := write_gamma b (wsub n 1).
(** integer_codes.hpp:21-24. *)
Definition read_gamma (ws : list N) (fuel : nat) (it : biter) : res (N * biter) :=
  do (l, it) <- bi_skip_zeros ws fuel it;
  do (r, it) <- bi_get_bits ws it l;
  do hb <- shl 1 l;
  Ok (wsub (N.lor r hb) 1, it).
(** integer_codes.hpp:26-28. *)
Definition read_gamma_nonzero (ws : list N) (fuel : nat) (it : biter) : res (N * biter) :=
  do (r, it) <- read_gamma ws fuel it; Ok (wadd r 1, it).
(** integer_codes.hpp:30-36. *)
Definition write_delta (b : bvb) (n : N) : res bvb :=
  let nn := wadd n 1 in
  do l <- msb nn;
  do hb <- shl 1 l;
  do b <- write_gamma b (N.of_nat l);
  bvb_append_bits b (N.lxor nn hb) l.
(** integer_codes.hpp:38-41. *)
Definition read_delta (ws : list N) (fuel : nat) (it : biter) : res (N * biter) :=
  do (l, it) <- read_gamma ws fuel it;
  do (r, it) <- bi_get_bits ws it (N.to_nat l);
  do hb <- shl 1 (N.to_nat l);
  Ok (wsub (N.lor r hb) 1, it).

(** building_util.hpp:20-27. *)
Definition push_pad (b : bvb) (alignment : nat) : res bvb :=
  let m := (b_size b mod alignment)%nat in
  if (m =? 0)%nat then Ok b else bvb_append_bits b 0 (alignment - m).
(** building_util.hpp:29-36. *)
Definition eat_pad (ws : list N) (it : biter) (alignment : nat) : res biter :=
  let m := (bi_pos it mod alignment)%nat in
  if (m =? 0)%nat then Ok it else do (_, it) <- bi_get_bits ws it (alignment - m); Ok it.

(** A stream of integers, each with its code (integer_codes.hpp:8-36: the writers). *)
Definition write_int (b : bvb) (c : code) (n : N) : res bvb :=
  match c with
  | Gamma => write_gamma b n
  | GammaNonzero => write_gamma_nonzero b n
  | Delta => write_delta b n
  | Fixed len => bvb_append_bits b n len
  end.
(** integer_codes.hpp:21-41: the readers. *)
Definition read_int (ws : list N) (fuel : nat) (it : biter) (c : code) : res (N * biter) :=
  match c with
  | Gamma => read_gamma ws fuel it
  | GammaNonzero => read_gamma_nonzero ws fuel it
  | Delta => read_delta ws fuel it
  | Fixed len => bi_get_bits ws it len
  end.
(** integer_codes.hpp:8-36: a sequence of calls. *)
Fixpoint write_ints (b : bvb) (l : list (code * N)) : res bvb :=
  match l with
  | [] => Ok b
  | (c, n) :: l' => do b <- write_int b c n; write_ints b l'
  end.
(** integer_codes.hpp:21-41: a sequence of calls. *)
Fixpoint read_ints (ws : list N) (fuel : nat) (it : biter) (cs : list code) : res (list N * biter) :=
  match cs with
  | [] => Ok ([], it)
  | c :: cs' => do (n, it) <- read_int ws fuel it c; do (ns, it) <- read_ints ws fuel it cs'; Ok (n :: ns, it)
  end.
