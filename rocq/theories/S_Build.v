(** Specification: when a collection can be indexed. *)
From Verif Require Import Base S_Vocab S_Collection.

(** [r] is a result exactly if [P] holds, otherwise an exception; nothing else. *)
Definition builds_iff {A} (r : res A) (P : Prop) : Prop := ((exists x, r = Ok x) /\ P) \/ (r = Exn /\ ~ P).

(** Not all doc ids of the completions the integer dictionary's builder keeps (finding F23) are zero. *)
Definition some_kept_doc_positive (c : collection) : Prop := exists d, In d (stored (docs c)) /\ 0 < d.
