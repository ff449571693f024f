(** Specification: a computation that ends (C60). [Fuel]: a loop has not ended within the given number of steps; [Exn]: an exception. *)
From Verif Require Import Base.

Definition ends {A} (r : res A) : Prop := match r with Ok _ => True | UB => True | Exn => False | Fuel => False end.
