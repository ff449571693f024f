(** Model of query parsing: include/util_types.hpp (byte_range_iterator) and
    include/autocomplete_common.hpp (parse, deduplicate). No proofs. *)
From Verif Require Import Base.

(** util_types.hpp:253-255. *)
Definition SPACE : N := 32.

(** util_types.hpp:253: skip leading spaces. *)
Fixpoint skip_spaces (r : list N) : list N :=
  match r with
  | x :: r' => if (x =? SPACE)%N then skip_spaces r' else r
  | [] => []
  end.

(** util_types.hpp:255: consume a token; returns (token, rest). *)
Fixpoint take_token (r : list N) : list N * list N :=
  match r with
  | x :: r' =>
      if (x =? SPACE)%N then ([], r)
      else let '(t, rest) := take_token r' in (x :: t, rest)
  | [] => ([], [])
  end.

(** util_types.hpp:251-258 byte_range_iterator::next(). *)
Definition bri_next (r : list N) : list N * list N := take_token (skip_spaces r).

(** util_types.hpp:247-249 has_next(). *)
Definition bri_has_next (r : list N) : bool := negb (length r =? 0).

(** autocomplete_common.hpp:13-28 parse(dict, query, prefix, suffix, must_find_prefix).
    [locate] is dict.locate with its static buffer threaded as a state [St].
    Result: None when parse returns false, else Some (prefix, suffix). *)
Section Parse.
  Variable St : Type.
  Variable locate : list N -> St -> res (option nat * St).

  Definition parse_step (must_find_prefix : bool) (s : list N * list nat * St)
    : res ((list N * list nat * St) + (option (list nat * list N) * St)) :=
    let '(r, prefix, st) := s in
    let '(suffix, r') := bri_next r in
    if negb (bri_has_next r') then Ok (inr (Some (prefix, suffix), st))
    else
      do (id, st') <- locate suffix st;
      match id with
      | Some i => Ok (inl (r', prefix ++ [i], st'))
      | None =>
          if must_find_prefix then Ok (inr (None, st'))
          else Ok (inl (r', prefix, st'))
      end.

  (** As above: autocomplete_common.hpp:13-28. *)
  Definition parse (must_find_prefix : bool) (query : list N) (st : St)
    : res (option (list nat * list N) * St) :=
    loop (length query + 2) (parse_step must_find_prefix) (query, [], st).
End Parse.

(** std::sort on ids (specified as a stable insertion sort) and std::unique,
    autocomplete_common.hpp:30-34 deduplicate. *)
Fixpoint insert_nat (x : nat) (l : list nat) : list nat :=
  match l with
  | [] => [x]
  | y :: l' => if x <=? y then x :: l else y :: insert_nat x l'
  end.
(** As above: autocomplete_common.hpp:30-34. *)
Definition sort_nat (l : list nat) : list nat := fold_right insert_nat [] l.
(** As above: autocomplete_common.hpp:30-34. *)
Fixpoint uniq (l : list nat) : list nat :=
  match l with
  | [] => []
  | x :: l' =>
      match l' with
      | [] => [x]
      | y :: _ => if x =? y then uniq l' else x :: uniq l'
      end
  end.
(** As above: autocomplete_common.hpp:30-34. *)
Definition deduplicate (c : list nat) : list nat := uniq (sort_nat c).
