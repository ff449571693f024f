(** Specification: lines of queries, their tokens and numbers; files of 32-bit integers; shortened queries. *)
From Verif Require Import Base S_Parse S_Text S_Vocab S_Collection.
Local Open Scope nat_scope.

(** The lines of a text; the newline of the last one may be missing. *)
Definition one_line (l : list N) : Prop := Forall (fun b => b <> 10%N) l.
Inductive has_lines : list (list N) -> list N -> Prop :=
| lines_none : has_lines [] []
| lines_last l : l <> [] -> one_line l -> has_lines [l] l
| lines_line l ls text : one_line l -> has_lines ls text -> has_lines (l :: ls) (l ++ 10%N :: text).

(** All tokens of a line: those followed by a space, and the last one (the empty string after a space at the end). *)
Definition tokens (line : list N) (ts : list (list N)) : Prop :=
  exists complete last, query_split line complete last /\ ts = complete ++ [last].
(** The number of a token: its position in the vocabulary, counted from 0; 2^32 - 2 for a token that is not in it. *)
Definition number (terms : list (list N)) (t : list N) (x : N) : Prop :=
  nth_error terms (N.to_nat x) = Some t \/ (~ In t terms /\ x = 4294967294%N).
(** The numbers of the tokens of [line], in decimal, separated by tabs. *)
Fixpoint tabbed (ws : list (list N)) : list N :=
  match ws with
  | [] => []
  | w :: ws' => match ws' with [] => w | _ => w ++ 9%N :: tabbed ws' end
  end.
Definition mapped_line (terms : list (list N)) (line row : list N) : Prop :=
  exists ts xs ws, tokens line ts /\ Forall2 (number terms) ts xs /\ Forall2 numeral ws xs /\ row = tabbed ws.
Definition each_ended (rows : list (list N)) : list N := flat_map (fun r => r ++ [10%N]) rows.

(** A file of 32-bit integers, lowest byte first. *)
Inductive integers : list N -> list N -> Prop :=
| ints_none : integers [] []
| ints_next a b c d xs file : Forall (fun x => (x < 256)%N) [a; b; c; d] -> integers xs file ->
    integers ((a + 256 * b + 65536 * c + 16777216 * d)%N :: xs) (a :: b :: c :: d :: file).

(** [short] is [query] with its last token cut to its first [j] characters (all if it has no more): at least the part m / 2^e of them and at least
    one, and fewer than four more than that part. *)
Definition shortened (m e : N) (query short : list N) : Prop :=
  exists body last ts j, query = body ++ last /\ no_space last /\ words body ts /\ short = body ++ firstn j last /\ 1 <= j /\
    (N.of_nat (length last) * m <= N.of_nat j * 2 ^ e)%N /\ (N.of_nat j * 2 ^ e < N.of_nat (length last) * m + 4 * 2 ^ e)%N.
(** [x] / 2^e rounded up. *)
Definition ceiling (x e c : N) : Prop := (x <= c * 2 ^ e /\ c * 2 ^ e < x + 2 ^ e)%N.
