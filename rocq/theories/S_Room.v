(** Specification: which answers the result buffer has room for (F13). *)
From Verif Require Import Base S_Order S_Vocab M_Auto S_Collection.
Local Open Scope nat_scope.

(** The length of the longest common prefix. *)
Fixpoint common (a b : list N) : nat :=
  match a, b with
  | x :: a', y :: b' => if (x =? y)%N then S (common a' b') else 0
  | _, _ => 0
  end.

(** How many bytes the extraction of the [i]-th of the terms [ts] (0-based) overwrites, from the place where the term is
    wanted: first the first term of its group of BucketSize + 1 is written there; then, for every further term of the group up to
    the [i]-th, 128 bytes starting behind the prefix that it shares with its predecessor. *)
Definition reach {bucket : bucket_size} (ts : list (list N)) (i : nat) : nat :=
  fold_right Nat.max (length (nth (i / (BUCKET + 1) * (BUCKET + 1)) ts []))
    (map (fun j => common (nth j ts []) (nth (j - 1) ts []) + 128) (seq (i / (BUCKET + 1) * (BUCKET + 1) + 1) (i mod (BUCKET + 1)))).

(** The words [ids], written from offset [o] on with a space between any two, stay inside the buffer. *)
Fixpoint room_for (c : collection) (o : nat) (ids : list N) : Prop :=
  match ids with
  | [] => True
  | x :: ids' => o + reach (terms c) (N.to_nat x - 1) <= POOL_SIZE /\ room_for c (o + length (word c x) + 1) ids'
  end.

(** The strings of an answer, written one behind the other, stay inside the buffer. *)
Fixpoint has_room (c : collection) (o : nat) (out : list (nat * list N)) : Prop :=
  match out with
  | [] => True
  | (d, s) :: out' => (forall ids, is_doc c d ids -> room_for c o ids) /\ has_room c (o + length s) out'
  end.
