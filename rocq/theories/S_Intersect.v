(** Specification of document streams and of intersections. *)
From Coq Require Import Permutation Sorted.
From Verif Require Import Base M_Iter S_Iter M_Intersect.

(** Reading the stream to its end yields exactly [r]. *)
Fixpoint yields {St} (ops : stream_ops St) (s : St) (r : list nat) : Prop :=
  match r with
  | [] => s_has_next ops s = false
  | x :: r' => s_has_next ops s = true /\ s_deref ops s = x /\
               exists s', s_next ops s = Ok s' /\ yields ops s' r'
  end.

(** [r] lists the elements common to all [lists], in increasing order. *)
Definition common (lists : list (list nat)) (r : list nat) : Prop :=
  increasing r /\ forall x, In x r <-> Forall (In x) lists.

(** std::sort on iterators: a permutation in order of size. *)
Definition sorts_by_size {It} (ops : iter_ops It) (sort : list It -> list It) : Prop :=
  forall l, Permutation (sort l) l /\
            StronglySorted (fun x y => i_size ops x <= i_size ops y) (sort l).
