(** What the page shows for an answer (C81). *)
From Verif Require Import Base S_Json M_Page S_Page.
Local Open Scope N_scope.

(** The word [w] occurs, up to case, in the shown text, and its first character there is bold. *)
Definition marked (same : N -> N -> bool) (w : list N) (t : list (N * bool)) : Prop :=
  exists a c b, t = (a ++ (c, true) :: b)%list /\ begins same w (c :: map fst b).
(** Typed text without characters that are special in regular expressions, and without white space other than spaces. *)
Definition simple_text (q : list N) : Prop := ordinary q /\ Forall (fun c => white c = true -> c = 32) q.
