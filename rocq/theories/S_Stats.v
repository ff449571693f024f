(** Specification: accurate statistics of an index. The first line gives the total and the number of completions. The lines of the
    parts add up to the total. The lines under a part add up to the part, except for at most 24 bytes of counters. Every average is
    taken over the right number. *)
From Coq Require Import String.
From Verif Require Import Base S_Completions S_Collection M_Bytes.
Local Open Scope nat_scope.

(** The words of all completions; the pairs (term, completion containing it). *)
Definition num_words (c : collection) : nat := length (concat (comps c)).
Definition num_postings (c : collection) : nat := list_sum (map (fun ids => length (nodup N.eq_dec ids)) (comps c)).

(** A part, its numbers, and the lines up to the next part. *)
Record group := { g_what : string; g_bytes : nat; g_total : nat; g_completions : nat; g_under : list stat_line }.
Fixpoint groups (lines : list stat_line) : list stat_line * list group :=
  match lines with
  | [] => ([], [])
  | l :: rest =>
    let (under, gs) := groups rest in
    match l with
    | Part w b t n => ([], {| g_what := w; g_bytes := b; g_total := t; g_completions := n; g_under := under |} :: gs)
    | _ => (l :: under, gs)
    end
  end.

Definition line_bytes (l : stat_line) : nat :=
  match l with
  | Using b _ | Part _ b _ _ | PerString _ b _ | PerInteger _ b _ => b
  | Average _ _ | Blocks _ => 0
  end.
(** What a line under the part [what] is averaged over. *)
Definition line_ok (c : collection) (what : string) (l : stat_line) : Prop :=
  let strings := if (what =? "dictionary")%string then length (terms c) else length (comps c) in
  let integers := if (what =? "forward index")%string then num_words c else num_postings c in
  match l with
  | PerString _ _ n => n = strings
  | PerInteger _ _ n => n = integers
  | Average i n => i = integers /\ n = length (comps c)
  | Blocks n => n <= length (terms c)
  | Using _ _ | Part _ _ _ _ => False
  end.
Record group_ok (c : collection) (size : nat) (g : group) : Prop := {
  go_total : g_total g = size;
  go_completions : g_completions g = length (comps c);
  go_lines : Forall (line_ok c (g_what g)) (g_under g);
  go_sum : g_under g = [] \/ list_sum (map line_bytes (g_under g)) <= g_bytes g <= list_sum (map line_bytes (g_under g)) + 24
}.
Definition accurate_stats (c : collection) (size : nat) (lines : list stat_line) : Prop :=
  exists rest gs, lines = Using size (length (comps c)) :: rest /\ groups rest = ([], gs) /\
    list_sum (map g_bytes gs) = size /\ Forall (group_ok c size) gs.
