(** Specification: the numbers that the benchmark programs report. *)
From Verif Require Import Base M_Auto.
Local Open Scope nat_scope.

(** [n] results of [con] have a doc id that no result of [pre] has. *)
Definition gain (pre con : list (nat * list N)) (n : nat) : Prop :=
  exists ds, NoDup ds /\ length ds = n /\ forall d, In d ds <-> In d (map fst con) /\ ~ In d (map fst pre).
Inductive gains : list (list (nat * list N)) -> list (list (nat * list N)) -> nat -> Prop :=
| gains_none : gains [] [] 0
| gains_next p c n pre con s : gain p c n -> gains pre con s -> gains (p :: pre) (c :: con) (n + s).
