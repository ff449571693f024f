(** Specification: choosing completions as queries and leaving them out of the collection. *)
From Verif Require Import Base S_Python S_Collection S_Prep.
Local Open Scope nat_scope.

(** Seven classes: completions of 1, ..., 6 words and of more. *)
Definition class (e : nat * list (list N)) : nat := Nat.min (length (snd e)) 7.
(** [chosen] has up to [n] different completions of each class. *)
Record chooses (n : nat) (es : entries) (chosen : list entries) : Prop := {
  ch_classes : length chosen = 7;
  ch_from : forall i e, In e (nth i chosen []) -> In e es /\ class e = S i;
  ch_once : forall i, NoDup (nth i chosen []);
  ch_number : forall i, i < 7 -> length (nth i chosen []) = Nat.min n (length (filter (fun e => class e =? S i) es))
}.
(** [rest]: the others. *)
Definition others (es : entries) (chosen : list entries) (rest : entries) : Prop :=
  forall e, In e rest <-> In e es /\ ~ In e (concat chosen).
(** One completion per line. *)
Definition one_per_line (l : entries) : list N := flat_map (fun e => join (snd e) ++ [10%N]) l.
