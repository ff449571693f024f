(** Specification: how a query is split into complete tokens and a last token. *)
From Verif Require Import Base.

Definition no_space (w : list N) : Prop := Forall (fun c => c <> 32%N) w.

(** [words body ts]: [body] is a sequence of space-terminated words [ts]
    (non-empty, without spaces) separated by any number of spaces. *)
Inductive words : list N -> list (list N) -> Prop :=
| words_nil : words [] []
| words_space : forall r ts, words r ts -> words (32%N :: r) ts
| words_word : forall w r ts, w <> [] -> no_space w -> words r ts -> words (w ++ 32%N :: r) (w :: ts).

(** The query is its complete tokens [ts] (everything up to the last space)
    followed by the last, possibly incomplete and possibly empty, token. *)
Definition query_split (q : list N) (ts : list (list N)) (last : list N) : Prop :=
  exists body, q = body ++ last /\ no_space last /\ words body ts.

(** What parse must deliver for a dictionary [dic] : token -> id. *)
Fixpoint known_ids (dic : list N -> option nat) (ts : list (list N)) : list nat :=
  match ts with
  | [] => []
  | t :: ts' => match dic t with Some i => i :: known_ids dic ts' | None => known_ids dic ts' end
  end.
Definition all_known (dic : list N -> option nat) (ts : list (list N)) : Prop :=
  Forall (fun t => dic t <> None) ts.

(** [ids] lists, in order and skipping unknown tokens, the 1-based positions of the tokens [ts]. *)
Inductive positions (terms : list (list N)) : list (list N) -> list nat -> Prop :=
| pos_nil : positions terms [] []
| pos_known : forall t ts i ids, nth_error terms i = Some t -> positions terms ts ids ->
    positions terms (t :: ts) ((i + 1) :: ids)
| pos_unknown : forall t ts ids, ~ In t terms -> positions terms ts ids -> positions terms (t :: ts) ids.
