(** Specification: how the answers to related requests are related (C56 to C59). *)
From Verif Require Import Base S_Order S_Parse M_Auto S_Collection S_Found.
Local Open Scope nat_scope.

(** [r] is [r'] with a smaller k. *)
Definition fewer (r r' : request) : Prop :=
  rq_conj r = rq_conj r' /\ rq_text r = rq_text r' /\ 1 <= rq_k r <= rq_k r'.
(** The same if [r'] has no limit (F10). *)
Definition limited (r r' : request) : Prop :=
  rq_conj r = rq_conj r' /\ rq_text r = rq_text r' /\ 1 <= rq_k r /\ rq_k r' = 0.

(** [r'] is more specific: its last token continues that of [r], and the complete tokens of a conjunctive search are those of
    [r] and possibly more, in any order. *)
Definition refines (r r' : request) : Prop :=
  rq_conj r = rq_conj r' /\ rq_k r = rq_k r' /\
  exists ts last ts' last', query_split (rq_text r) ts last /\ query_split (rq_text r') ts' last' /\ is_prefix last last' /\
    if rq_conj r then incl ts ts' else ts = ts'.

(** The same query and k, as a prefix search and as a conjunctive search. *)
Definition both_ways (r r' : request) : Prop :=
  rq_conj r = false /\ rq_conj r' = true /\ rq_k r = rq_k r' /\ rq_text r = rq_text r'.

(** Everything in [out'] is in [out] too, unless [out] is full with better results. *)
Definition includes (n : nat) (out out' : list (nat * list N)) : Prop :=
  forall d s, In (d, s) out' -> In (d, s) out \/ length out = n /\ Forall (fun r => fst r < d) out.

(** Typing on: the exceptions. The last token becomes the first term of the dictionary, which its proper prefixes do not find
    (F1); and the first completion, which prefix search with the integer dictionary finds or not (F2). *)
Definition becomes_first (c : collection) (r r' : request) : Prop :=
  exists ts last ts' last', query_split (rq_text r) ts last /\ query_split (rq_text r') ts' last' /\
    last <> [] /\ last <> last' /\ last' = nth 0 (terms c) [].
Definition without_first (c : collection) (out : list (nat * list N)) : list (nat * list N) :=
  filter (fun r => negb (fst r =? nth 0 (docs c) 0)) out.

(** The terms of a collection have no spaces (the scripts split completions at spaces). *)
Definition no_spaces (c : collection) : Prop := Forall no_space (terms c).
(** [(d, x)] is a result, or there are [n] results that are better. *)
Definition suggested (n : nat) (out : list (nat * list N)) (d : nat) (x : list N) : Prop :=
  In (d, x) out \/ length out = n /\ Forall (fun r => fst r < d) out.
