(** Bits, rank and select on lists of bits. *)
From Verif Require Import Base.

Local Open Scope nat_scope.
(** The n lowest bits of a number, the lowest first. *)
Definition bits_of (n : nat) (x : N) : list bool := map (fun i => N.testbit x (N.of_nat i)) (seq 0 n).

(** How many of the first i bits are equal to b. *)
Definition rank (b : bool) (l : list bool) (i : nat) : nat := count_occ Bool.bool_dec (firstn i l) b.

(** p is the position of the k-th (from 0) bit equal to b. *)
Definition is_select (b : bool) (l : list bool) (k p : nat) : Prop :=
  nth_error l p = Some b /\ rank b l p = k.

(** The number whose bits are the list, the lowest first. *)
Fixpoint number (l : list bool) : N :=
  match l with
  | [] => 0
  | b :: l' => (if b : bool then 1 else 0) + 2 * number l'
  end.

(** ** Operations on a growing sequence of bits and what they mean *)
Inductive bop :=
| Push (b : bool)                          (* push_back(b) *)
| AppendBits (x : N) (len : nat)           (* append_bits(x, len) *)
| SetBit (pos : nat) (b : bool)            (* set(pos, b) *)
| SetBits (pos : nat) (x : N) (len : nat)  (* set_bits(pos, x, len) *)
| ZeroExtend (n : nat)                     (* zero_extend(n) *)
| Reverse.                                 (* reverse() *)

(** Replacing the bits from pos on by m. *)
Definition overwrite {A} (l : list A) (pos : nat) (m : list A) : list A := firstn pos l ++ m ++ skipn (pos + length m) l.

Definition bop_meaning (l : list bool) (o : bop) : list bool :=
  match o with
  | Push b => l ++ [b]
  | AppendBits x len => l ++ bits_of len x
  | SetBit pos b => overwrite l pos [b]
  | SetBits pos x len => overwrite l pos (bits_of len x)
  | ZeroExtend n => l ++ repeat false n
  | Reverse => rev l
  end.
(** Preconditions: at most 64 bits at a time, the value fits them, writes are inside. *)
Definition bop_legal (l : list bool) (o : bop) : Prop :=
  match o with
  | Push _ | ZeroExtend _ | Reverse => True
  | AppendBits x len => len <= 64 /\ (x < 2 ^ N.of_nat len)%N
  | SetBit pos _ => pos < length l
  | SetBits pos x len => len <= 64 /\ (x < 2 ^ N.of_nat len)%N /\ pos + len <= length l
  end.
Fixpoint bops_legal (l : list bool) (os : list bop) : Prop :=
  match os with
  | [] => True
  | o :: os' => bop_legal l o /\ bops_legal (bop_meaning l o) os'
  end.
Definition bops_meaning (l : list bool) (os : list bop) : list bool := fold_left bop_meaning os l.

(** The numbers in consecutive fields of the given lengths, from pos on. *)
Fixpoint fields (l : list bool) (pos : nat) (lens : list nat) : list N :=
  match lens with
  | [] => []
  | len :: lens' => number (firstn len (skipn pos l)) :: fields l (pos + len) lens'
  end.
(** The positions of the ones from q on, in increasing order. *)
Definition ones_from (l : list bool) (q : nat) : list nat := filter (fun i => nth i l false) (seq q (length l - q)).
