(** Which integers may be written with which code. *)
From Verif Require Import Base.

(** gamma, gamma of n - 1, delta, a fixed number of bits. *)
Inductive code := Gamma | GammaNonzero | Delta | Fixed (len : nat).

Definition int_ok (c : code) (n : N) : Prop :=
  match c with
  | Gamma | Delta => (n < 2 ^ 64 - 1)%N
  | GammaNonzero => (0 < n < 2 ^ 64)%N
  | Fixed len => len < 64 /\ (n < 2 ^ N.of_nat len)%N
  end.
