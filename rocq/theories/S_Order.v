(** Specification: lexicographic order on sequences and prefixes. *)
From Verif Require Import Base.

(** Strict lexicographic order on sequences of naturals (bytes or token ids). *)
Inductive lex_lt : list N -> list N -> Prop :=
| lex_nil : forall y ys, lex_lt [] (y :: ys)
| lex_head : forall x y xs ys, (x < y)%N -> lex_lt (x :: xs) (y :: ys)
| lex_tail : forall x xs ys, lex_lt xs ys -> lex_lt (x :: xs) (x :: ys).

Definition is_prefix (p s : list N) : Prop := exists t, s = p ++ t.

(** Strictly increasing lists of sequences. *)
Fixpoint lex_sorted (ls : list (list N)) : Prop :=
  match ls with
  | [] => True
  | a :: rest =>
      match rest with
      | [] => True
      | b :: _ => lex_lt a b
      end /\ lex_sorted rest
  end.

(** No NUL byte inside. *)
Definition nul_free (s : list N) : Prop := Forall (fun c => (0 < c)%N) s.

(** Equal as C strings although they go on: the same bytes up to a NUL, which both have. *)
Definition same_cstr (l r : list N) : Prop :=
  exists p u v, nul_free p /\ l = p ++ 0%N :: u /\ r = p ++ 0%N :: v.
