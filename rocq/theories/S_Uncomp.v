(** Specification: iterators over uncompressed posting lists. *)
From Coq Require Import Sorted.
From Verif Require Import Base M_Uncomp.
Local Open Scope nat_scope.

(** Strictly increasing lists of doc ids below [u], for integers of [width] bytes: [u] itself fits, too. *)
Record wf_ulists (width : nat) (u : N) (lists : list (list N)) : Prop := {
  wu_width : 1 <= width <= 8;
  wu_u : (u < 2 ^ 32)%N;
  wu_fits : (u < 2 ^ N.of_nat (8 * width))%N;
  wu_some : lists <> [];
  wu_nonempty : Forall (fun l => l <> []) lists;
  wu_sorted : Forall (StronglySorted N.lt) lists;
  wu_below : Forall (Forall (fun v => (v < u)%N)) lists;
  wu_size : (N.of_nat (length (concat lists)) < 2 ^ 40)%N
}.

(** What a user can do with an iterator: ++it, next(), access(i), next_geq(x), next_geq_by_scan(x). *)
Inductive uop := UIncr | UNext | UAccess (i : nat) | UGeq (x : N) | UScan (x : N).
Definition uop_run (width : nat) (strict : bool) (op : uop) (it : uit) : res uit :=
  match op with
  | UIncr => Ok (n_incr it)
  | UNext => n_next width strict it
  | UAccess i => n_access width strict it i
  | UGeq x => n_next_geq width strict it x
  | UScan x => n_geq_by_scan width strict it x
  end.
Fixpoint uops_run (width : nat) (strict : bool) (ops : list uop) (it : uit) : res uit :=
  match ops with [] => Ok it | op :: ops' => do it <- uop_run width strict op it; uops_run width strict ops' it end.

(** [q] is the first position from [p] on whose element is at least [x]; the end if there is none. *)
Definition first_from (l : list N) (p : nat) (x : N) (q : nat) : Prop :=
  p <= q <= length l /\ (forall i, p <= i < q -> (nth i l 0 < x)%N) /\ (q < length l -> (x <= nth q l 0)%N).
(** From position p the operation leads to position q. *)
Definition uop_moves (width : nat) (l : list N) (op : uop) (p q : nat) : Prop :=
  match op with
  | UIncr | UNext => p < length l /\ q = p + 1
  | UAccess i => i < length l /\ q = i
  | UGeq x | UScan x => (x < 2 ^ N.of_nat (8 * width))%N /\ first_from l p x q
  end.
Inductive uops_move (width : nat) (l : list N) : list uop -> nat -> nat -> Prop :=
| no_umove p : uops_move width l [] p p
| one_umove op ops p q r : uop_moves width l op p q -> uops_move width l ops q r -> uops_move width l (op :: ops) p r.

(** The iterator stands at position p: position(), size(), has_next(), and *it before the end. *)
Definition ushows (width : nat) (strict : bool) (l : list N) (it : uit) (p : nat) : Prop :=
  n_pos it = p /\ n_size it = length l /\ n_has_next it = (p <? length l) /\
  (p < length l -> exists it', n_deref width strict it = Ok it' /\ n_id it' = nth p l 0%N /\ n_pos it' = p).
