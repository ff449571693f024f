(** Character classes of the C locale (isspace, isdigit). No proofs. *)
From Verif Require Import Base.

(** the locale of src/web_server.cpp:53 (stoull) and inverted_index.hpp:38-47 (operator>>). *)
Definition is_space (b : N) : bool := ((b =? 32) || (9 <=? b) && (b <=? 13))%N.
(** the locale of src/web_server.cpp:53 (stoull) and inverted_index.hpp:38-47 (operator>>). *)
Definition isdigit (b : N) : bool := ((48 <=? b) && (b <=? 57))%N.
(** the locale of src/web_server.cpp:53 (stoull) and inverted_index.hpp:38-47 (operator>>). *)
Fixpoint skip_spaces (s : list N) : list N :=
  match s with b :: s' => if is_space b then skip_spaces s' else s | [] => [] end.
