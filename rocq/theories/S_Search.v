(** Specification of searches in arrays. *)
From Verif Require Import Base.

(** Positions [b..e) of [l] hold strictly increasing values. *)
Definition increasing_on (l : list N) (b e : nat) : Prop :=
  forall i j, b <= i -> i < j -> j < e -> (nth i l 0 < nth j l 0)%N.

(** [r] is the position of [x] among positions [b..e) ([None]: not there). *)
Definition is_position (l : list N) (b e : nat) (x : N) (r : option nat) : Prop :=
  match r with
  | Some p => b <= p < e /\ nth p l 0%N = x
  | None => forall p, b <= p < e -> nth p l 0%N <> x
  end.

(** [r] is the first position of [b..e) holding a value [>= x]. *)
Definition is_first_geq (l : list N) (b e : nat) (x : N) (r : option nat) : Prop :=
  match r with
  | Some p => b <= p < e /\ (x <= nth p l 0%N)%N /\ (forall q, b <= q < p -> (nth q l 0%N < x)%N)
  | None => forall p, b <= p < e -> (nth p l 0%N < x)%N
  end.

(** [q1, q2) is the set of the positions of [b..e) whose value lies in [x..y]. *)
Definition is_value_range (l : list N) (b e : nat) (x y : N) (q : nat * nat) : Prop :=
  b <= fst q <= snd q /\ snd q <= e /\
  forall p, b <= p < e -> (fst q <= p < snd q <-> (x <= nth p l 0 <= y)%N).

(** The sibling groups of one trie level: [groups] one after the other. Group [k] occupies the
    positions [group_begin groups k .. group_begin groups (k+1)). *)
Definition group_begin (groups : list (list N)) (k : nat) : nat := length (concat (firstn k groups)).

(** The pointers of the level above: begin of every group, then the end of the last one. *)
Definition group_pointers (groups : list (list N)) : list nat :=
  map (group_begin groups) (seq 0 (length groups + 1)).

(** [acc] and [itr] read the array [l]: access(i), and iteration started anywhere. *)
Definition reads (l : list N) (acc : nat -> res N) (itr : nat -> nat -> res N) : Prop :=
  (forall i, i < length l -> acc i = Ok (nth i l 0%N)) /\
  (forall lo j, lo + j < length l -> itr lo j = Ok (nth (lo + j) l 0%N)).
