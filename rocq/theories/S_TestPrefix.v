(** Specification: the files the test of locate_prefix reads, and when it passes (C70). *)
From Verif Require Import Base S_Order S_Vocab S_Parse S_Collection S_Found S_Tools.
Local Open Scope nat_scope.

(** Every character of every term comes after the space. *)
Definition plain_terms (c : collection) : Prop := Forall (Forall (fun x => (32 < x)%N)) (terms c).
(** The file of the collection: a score, a space and the text of a completion in each line, in the order of the completions. *)
Definition collection_file (c : collection) (input : list N) : Prop :=
  exists ls, has_lines ls input /\ Forall2 (fun l ids => exists s, no_space s /\ l = s ++ 32%N :: text c ids) ls (comps c).

(** Some completion starts with the text [q]. *)
Definition occurs (c : collection) (q : list N) : Prop := exists ids, In ids (comps c) /\ is_prefix q (text c ids).
(** Every completion that starts with the text [q] is found, despite F1, F2 and F23. *)
Definition all_found (c : collection) (q : list N) : Prop :=
  forall ts last ids, query_split q ts last -> In ids (comps c) -> is_prefix q (text c ids) -> prefix_found c ts last (words_of c ids).

(** The rounds up to the first one without a file of queries. *)
Fixpoint rounds_before {A} (has_file : A -> bool) (l : list A) : list A :=
  match l with
  | [] => []
  | x :: l' => if has_file x then x :: rounds_before has_file l' else []
  end.
(** A file of queries: lines that are not empty, not too long and without the character 0. *)
Definition query_line (q : list N) : Prop := q <> [] /\ (N.of_nat (length q) + 2 < 16777216)%N /\ nul_free q.
(** [lines n]: the lines of the file of queries with n terms, if there is one; the first [max] of them are read. *)
Definition query_files (max : nat) (lines : nat -> option (list (list N))) (files : nat -> option (list N)) : Prop :=
  forall n, match lines n, files n with
            | Some ls, Some file => has_lines ls file /\ Forall query_line (firstn max ls)
            | None, None => True
            | _, _ => False
            end.
Definition has_file (lines : nat -> option (list (list N))) (round : (N * N) * nat) : bool := match lines (snd round) with Some _ => true | None => false end.
(** The queries of a round: the last token is cut to the part m / 2^e. *)
Definition round_queries (max : nat) (lines : nat -> option (list (list N))) (round : (N * N) * nat) (qs : list (list N)) : Prop :=
  exists ls, lines (snd round) = Some ls /\ Forall2 (shortened (fst (fst round)) (snd (fst round))) (firstn max ls) qs.
