(** Specification: posting lists and iterators over them. *)
From Coq Require Import Sorted.
From Verif Require Import Base M_CompactEf M_InvIndex.
Local Open Scope nat_scope.

(** The lists of an inverted index over doc ids below [u] (non-decreasing is enough; posting lists are strictly
    increasing). Sizes as in a 32-bit index. *)
Record wf_lists (u : N) (lists : list (list N)) : Prop := {
  wl_u : (u < 2 ^ 32)%N;
  wl_some : lists <> [];
  wl_nonempty : Forall (fun l => l <> []) lists;
  wl_sorted : Forall (StronglySorted N.le) lists;
  wl_below : Forall (Forall (fun v => (v < u)%N)) lists;
  wl_size : (N.of_nat (length (concat lists)) < 2 ^ 40)%N
}.

(** [q] is the position of the first element of [l] that is at least [x]; the end if there is none. *)
Definition is_first_geq (l : list N) (x : N) (q : nat) : Prop :=
  q <= length l /\ (forall i, i < q -> (nth i l 0 < x)%N) /\ (q < length l -> (x <= nth q l 0)%N).

(** What a user can do with an iterator: ++it, access(i), next_geq(x). *)
Inductive lop := Next | Access (i : nat) | NextGeq (x : N).
Definition lop_run (op : lop) (it : ceit) : res ceit :=
  match op with Next => c_next it | Access i => c_access it i | NextGeq x => c_next_geq it x end.
Fixpoint lops_run (ops : list lop) (it : ceit) : res ceit :=
  match ops with [] => Ok it | op :: ops' => do it <- lop_run op it; lops_run ops' it end.
(** From position p the operation leads to position q. At the end, next_geq may only be asked for doc ids up to the
    universe (finding F27). *)
Definition lop_moves (u : N) (l : list N) (op : lop) (p q : nat) : Prop :=
  match op with
  | Next => p < length l /\ q = p + 1
  | Access i => i <= length l /\ q = i
  | NextGeq x => (p < length l \/ (x <= u)%N) /\ is_first_geq l x q
  end.
Inductive lops_move (u : N) (l : list N) : list lop -> nat -> nat -> Prop :=
| no_move p : lops_move u l [] p p
| one_move op ops p q r : lop_moves u l op p q -> lops_move u l ops q r -> lops_move u l (op :: ops) p r.

(** The iterator stands at position p: position(), size(), has_next(), the value (the universe at the end) and
    prev_value(). *)
Definition shows (u : N) (l : list N) (it : ceit) (p : nat) : Prop :=
  c_pos it = p /\ c_size it = length l /\ c_val it = nth p l u /\
  c_prev_value it = Ok (if p =? 0 then 0%N else nth (p - 1) l 0%N).
