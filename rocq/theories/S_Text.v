(** Specification: text files made of words separated by white space. *)
From Verif Require Import Base.
Local Open Scope N_scope.

(** White space: space, tab, line feed, vertical tab, form feed, carriage return. *)
Definition white (b : N) : Prop := b = 32 \/ 9 <= b <= 13.
Definition solid (w : list N) : Prop := w <> [] /\ Forall (fun b => ~ white b) w.

(** [text] consists of the words [ws], in any layout: white space between them, optionally before and after. *)
Inductive layout : list (list N) -> list N -> Prop :=
| lay_end gap : Forall white gap -> layout [] gap
| lay_word gap w ws text : Forall white gap -> solid w -> (text = [] \/ exists b t, text = b :: t /\ white b) -> layout ws text ->
    layout (w :: ws) (gap ++ w ++ text).

(** [w] is a decimal numeral for [v]. *)
Definition numeral (w : list N) (v : N) : Prop :=
  w <> [] /\ Forall (fun b => 48 <= b <= 57) w /\ fold_left (fun v b => 10 * v + (b - 48)) w 0 = v.
Definition numbers (vs : list N) (text : list N) : Prop := exists ws, Forall2 numeral ws vs /\ layout ws text.
