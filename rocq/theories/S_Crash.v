(** Index files left by an interrupted build (C82). *)
From Verif Require Import Base.

(** What is in the file if the program that writes [file] is stopped: the part written so far. *)
Definition interrupted (file f : list N) : Prop := exists n, n < length file /\ f = firstn n file.
(** Every file is accepted, or makes the program go wrong; none is reported as damaged. *)
Definition accepts_all {A} (load : list N -> res A) : Prop := forall f, (exists x, load f = Ok x) \/ load f = UB.
