(** Specification: the text of a query with the spaces tidied up: none at the front, and single ones between the words. A single space at the end stays. *)
From Verif Require Import Base S_Order S_Collection.

Fixpoint squeeze_after (space : bool) (q : list N) : list N :=
  match q with
  | [] => []
  | x :: r => if (x =? 32)%N then (if space then squeeze_after true r else x :: squeeze_after true r) else x :: squeeze_after false r
  end.
Definition squeeze (q : list N) : list N := squeeze_after true q.

(** A completion with the words [ws], whose text starts with [p]. *)
Definition starts_with (p : list N) (ws : list (list N)) : Prop := is_prefix p (join ws).
