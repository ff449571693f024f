(** Specification: blocks of terms, and what the containers of a blocked index have to do. *)
From Coq Require Import Sorted Permutation.
From Verif Require Import Base S_Iter M_Iter M_Intersect S_Intersect M_Containers S_Containers M_Blocked M_Auto S_Collection S_Found S_Parse S_Order.
Local Open Scope nat_scope.

Record bcontainers_ok (K : bcontainers) : Prop := {
  okb_base : containers_ok K;
  (* iterators over posting lists also know their position *)
  okb_lists : forall u ls, (N.of_nat u < 4294967296)%N -> ls <> [] ->
    Forall (fun l => l <> [] /\ increasing l /\ Forall (fun x => x < u) l) ls ->
    (N.of_nat (length (concat ls)) < 1099511627776)%N ->
    exists iterator at_, b_lists K u ls = Ok iterator /\ cursor (k_ops K u) u at_ /\ opens at_ iterator ls /\
      forall it l p, at_ it l p -> b_position K it = p;
  (* increasing lists of offsets *)
  okb_offsets : forall ls, ls <> [] ->
    Forall (fun l => l <> [] /\ increasing l /\ Forall (fun x => (N.of_nat x < 4294967295)%N) l) ls ->
    (N.of_nat (length (concat ls)) < 1099511627776)%N ->
    exists f, b_offsets K ls = Ok f /\
      forall b l, nth_error ls b = Some l -> exists acc, f b = Ok acc /\ forall i, i < length l -> acc i = Ok (nth i l 0);
  (* lists of relative term ids *)
  okb_terms : forall ls, ls <> [] -> Forall (fun l => l <> [] /\ Forall (fun x => (N.of_nat x < 4294967295)%N) l) ls ->
    (N.of_nat (length (concat ls)) < 1099511627776)%N ->
    exists f, b_terms K ls = Ok f /\
      forall b l, nth_error ls b = Some l -> exists acc, f b = Ok acc /\ forall i, i < length l -> acc i = Ok (nth i l 0);
  okb_sort : forall A key l, Permutation (b_sort K A key l) l
}.

(** Block number [i] of a partition given by the last terms of the blocks covers term [t]. *)
Definition in_block (bounds : list nat) (i t : nat) : Prop :=
  i < length bounds /\ 1 <= t <= nth i bounds 0 /\ (0 < i -> nth (i - 1) bounds 0 < t).

(** Terms [t1 <= t2] lie in the same block: no block ends in between. *)
Definition same_block (bounds : list nat) (t1 t2 : nat) : Prop := forall b, In b bounds -> ~ t1 <= b < t2.

(** [d] is in the posting list of term [t] (1-based). *)
Definition has_term (posts : list (list nat)) (d t : nat) : Prop := In d (nth (t - 1) posts []).

(** Number of postings: must fit 32 bits. *)
Definition few_postings (c : collection) : Prop :=
  (N.of_nat (length (concat (map (posting_list c) (seq 1 (length (terms c)))))) < 4294967295)%N.

(** [d] is the first document of block [i]: the least one with a term of the block. *)
Definition leads (bounds : list nat) (posts : list (list nat)) (i d : nat) : Prop :=
  (exists t, in_block bounds i t /\ has_term posts d t) /\
  forall d' t, in_block bounds i t -> has_term posts d' t -> d <= d'.

(** A sound answer: by increasing doc id (a doc id may be repeated, finding F7); at most [k]; every
    result belongs to a matching completion and has its text. *)
Definition sound_answer (c : collection) (P : list (list N) -> Prop) (k : nat) (out : list (nat * list N)) : Prop :=
  StronglySorted le (map fst out) /\ length out <= k /\
  (forall d s, In (d, s) out -> exists ids, is_doc c d ids /\ P (words_of c ids) /\ s = text c ids).

(** Queries for which type 4 is exact: the terms extending the last token lie in the same block (F6, F7, F8);
    and if the known complete tokens lie in one block, the first document of this block does not match (F5).
    [t]-th term: [nth (t - 1) (terms c) []]. *)
Definition query_exact (c : collection) (bounds : list nat) (ts : list (list N)) (last : list N) : Prop :=
  (forall t1 t2, 1 <= t1 <= t2 -> t2 <= length (terms c) ->
     is_prefix last (nth (t1 - 1) (terms c) []) -> is_prefix last (nth (t2 - 1) (terms c) []) ->
     same_block bounds t1 t2) /\
  (forall i d ids, (exists t, In t ts /\ In t (terms c)) ->
     (forall t, 1 <= t <= length (terms c) -> In (nth (t - 1) (terms c) []) ts -> in_block bounds i t) ->
     leads bounds (f_inverted (files_of c)) i d -> is_doc c d ids -> ~ conj_match c ts last (words_of c ids)).

(** The same for any condition [R] on the word of the last token, instead of [is_prefix last]. *)
Definition query_exact_by (c : collection) (R : list N -> Prop) (bounds : list nat) (ts : list (list N)) : Prop :=
  (forall t1 t2, 1 <= t1 <= t2 -> t2 <= length (terms c) ->
     R (nth (t1 - 1) (terms c) []) -> R (nth (t2 - 1) (terms c) []) -> same_block bounds t1 t2) /\
  (forall i d ids, (exists t, In t ts /\ known c t) ->
     (forall t, 1 <= t <= length (terms c) -> known c (nth (t - 1) (terms c) []) -> In (nth (t - 1) (terms c) []) ts -> in_block bounds i t) ->
     leads bounds (f_inverted (files_of c)) i d -> is_doc c d ids -> ~ conj_by c R ts (words_of c ids)).

(** What type 4 answers to a request: prefix searches are answered as by the other types; conjunctive searches get a
    sound answer, which is the right one under [query_exact]. *)
Definition answer4 (c : collection) (bounds : list nat) (r : request) (out : list (nat * list N)) : Prop :=
  exists ts last, query_split (rq_text r) ts last /\
    if rq_conj r
    then sound_answer c (conj_match c ts last) (rq_k r) out /\
         (query_exact c bounds ts last -> topk_answer c (conj_match c ts last) (rq_k r) out)
    else topk_answer c (prefix_match ts last) (rq_k r) out.

(** Requests covered: as [request_ok2]. *)
Definition request_ok4 (c : collection) (r : request) : Prop :=
  1 <= rq_k r <= MAX_K /\
  (forall ts last, query_split (rq_text r) ts last -> first_term_ok c last /\
     (rq_conj r = false -> first_completion_ok c ts last)) /\
  (forall ts last out, query_split (rq_text r) ts last ->
     sound_answer c (if rq_conj r then conj_match c ts last else prefix_match ts last) (rq_k r) out -> fits_pool out).

(** ** Exactly what conjunctive search answers, for any query and any k *)
(** The blocks are consecutive ranges of terms, and each of the [n] terms is in one. *)
Definition blocks_of (n : nat) (bounds : list nat) : Prop :=
  increasing bounds /\ forall t, 1 <= t <= n -> exists i, in_block bounds i t.

Section Blocks.
  Variables (c : collection) (bounds : list nat) (ts : list (list N)) (R : list N -> Prop).
  Let posts := f_inverted (files_of c).

  (** The terms that the last token leads to. *)
  Definition sought (t : nat) : Prop := 1 <= t <= length (terms c) /\ R (nth (t - 1) (terms c) []).
  (** The blocks that are searched for them: the greatest of these terms is not considered, unless it is the only one (F6). *)
  Definition searched (i : nat) : Prop := exists t, sought t /\ in_block bounds i t /\
    ((exists t', t < t' /\ sought t') \/ forall t', sought t' -> t' = t).
  (** Block [i] has document [d]; and has it because of one of the terms sought. *)
  Definition held (i d : nat) : Prop := exists t, in_block bounds i t /\ has_term posts d t.
  Definition shown (i d : nat) : Prop := exists t, sought t /\ in_block bounds i t /\ has_term posts d t.

  Definition some_known : Prop := exists t, In t ts /\ known c t.
  (** The documents with the complete tokens, as they are enumerated: without the first document of the block if the
      tokens are all in one block (F5). *)
  Definition candidate (d : nat) : Prop :=
    (exists ids, is_doc c d ids /\ forall t, In t ts -> known c t -> In t (words_of c ids)) /\
    ~ exists i, (forall t, 1 <= t <= length (terms c) -> known c (nth (t - 1) (terms c) []) -> In (nth (t - 1) (terms c) []) ts -> in_block bounds i t) /\
                leads bounds posts i d.
  Definition met (d : nat) : Prop := (some_known -> candidate d) /\ exists i, searched i /\ held i d.

  (** All results, if there were no limit. Without complete tokens: each document once for each searched block that shows it
      (F7). With complete tokens: the candidates shown by the one searched block that is asked, of those that have the
      document (F8). Which one is asked depends on the heap, so the document is certain only if all of them show it. *)
  Definition all_blocked (full : list nat) : Prop :=
    (~ some_known -> StronglySorted le full /\
       forall d, exists js, NoDup js /\ (forall i, In i js <-> searched i /\ shown i d) /\ count_occ Nat.eq_dec full d = length js) /\
    (some_known -> increasing full /\
       (forall d, In d full -> candidate d /\ exists i, searched i /\ shown i d) /\
       (forall d i, candidate d -> searched i -> shown i d -> (forall j, searched j -> held j d -> shown j d) -> In d full)).

  (** Of these, the first k. With k = 0 there is no limit (F10), except that the search stops if the first block asked does
      not show its document. *)
  Definition blocked_docs (k : nat) (ds : list nat) : Prop := exists full, all_blocked full /\
    (1 <= k -> ds = firstn k full) /\
    (k = 0 -> (ds = full \/ ds = []) /\
       forall d, met d -> (forall d', met d' -> d <= d') ->
         (~ In d full -> ds = []) /\ (some_known -> In d full -> ds = full) /\
         ((forall j, searched j -> held j d -> shown j d) -> ds = full)).

  Definition blocked_answer (k : nat) (out : list (nat * list N)) : Prop :=
    blocked_docs k (map fst out) /\ forall d s, In (d, s) out -> exists ids, is_doc c d ids /\ s = text c ids.
End Blocks.

(** The answer to any request. *)
Definition answer_found4 (c : collection) (bounds : list nat) (r : request) (out : list (nat * list N)) : Prop :=
  exists ts last, query_split (rq_text r) ts last /\
    if rq_conj r then blocked_answer c bounds ts (found c last) (rq_k r) out
    else topk_answer c (prefix_found c ts last) (limit c (rq_k r)) out.

(** A block holds exactly what it should: reading its doc ids from the start ([docs]) gives the documents with a term of
    block [i], increasing, and the entries between consecutive offsets are, added to the lower bound, the terms of
    block [i] that the document has, increasing. *)
Definition block_holds (K : bcontainers) (posts : list (list nat)) (u : nat) (bounds : list nat) (i : nat) (b : block K) : Prop :=
  exists docs, yields (iter_stream (k_ops K u)) (bk_docs K b) docs /\ increasing docs /\
    (forall d, In d docs <-> exists t, in_block bounds i t /\ has_term posts d t) /\
    forall q, q < length docs -> exists beg ts, increasing ts /\
      (forall t, In t ts <-> in_block bounds i t /\ has_term posts (nth q docs 0) t) /\
      bk_off K b q = Ok beg /\ bk_off K b (q + 1) = Ok (beg + length ts) /\
      forall j, j < length ts -> exists e, bk_trm K b (beg + j) = Ok e /\ e + bk_low K b = nth j ts 0.

(** [r] lists the documents having all the terms [ids], increasing. *)
Definition common_docs (posts : list (list nat)) (ids r : list nat) : Prop :=
  increasing r /\ forall d, In d r <-> Forall (has_term posts d) ids.
