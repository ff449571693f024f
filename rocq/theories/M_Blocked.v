(** Model of include/blocked_inverted_index.hpp and include/autocomplete4.hpp. No proofs. *)
From Verif Require Import Base M_Heap M_Iter M_Parse M_Intersect M_TopK M_Containers M_Auto M_Auto2.
Local Open Scope nat_scope.

(** The containers of a blocked index (blocked_inverted_index.hpp:443-454). *)
Record bcontainers := {
  b_base :> containers;
  (* ef/compact_ef.hpp:207-209 position() *)
  b_position : k_It b_base -> nat;
  (* m_lists: per block 32 bits of size, then the compact_ef list of its documents *)
  b_lists : nat -> list (list nat) -> res (nat -> res (k_It b_base));
  (* m_offsets: one compact_ef per block, with universe = last value + 1; access(i). Simplification: the cached
     position of the offsets iterator is not part of the state. *)
  b_offsets : list (list nat) -> res (nat -> res (nat -> res nat));
  (* m_terms: per block 6 bits of width, then the packed values; bits_getter::access(i) *)
  b_terms : list (list nat) -> res (nat -> res (nat -> res nat));
  (* std::sort by a key *)
  b_sort : forall A : Type, (A -> nat) -> list A -> list A
}.

(** ** Building *)
(** What the builder collects for a block: its last term, the union of its posting lists, and for every doc id of the
    union its terms in the block, relative to the lower bound (blocked_inverted_index.hpp:182-196). *)
Record blk := { blk_bound : nat; blk_docs : list nat; blk_sets : list (list nat) }.

(** blocked_inverted_index.hpp:63-72: [terms] maps doc ids to lists (simplification: a list indexed by doc id instead
    of an unordered_map). *)
Fixpoint add_docs (terms : list (list nat)) (v : nat) (docs : list nat) : res (list (list nat)) :=
  match docs with
  | [] => Ok terms
  | d :: docs' => do s <- get terms d; do terms <- set terms d (s ++ [v]); add_docs terms v docs'
  end.

(** blocked_inverted_index.hpp:92-107: the sets of the documents of a block are copied and cleared. *)
Fixpoint take_sets (terms : list (list nat)) (docs : list nat) : res (list (list nat) * list (list nat)) :=
  match docs with
  | [] => Ok ([], terms)
  | d :: docs' =>
      do s <- get terms d;
      do terms <- set terms d [];
      do (sets, terms) <- take_sets terms docs';
      Ok (s :: sets, terms)
  end.

(** blocked_inverted_index.hpp:54-130: the main loop over the lists of .inverted; [m] = m_num_docs * c computed in floating point: any
    number. [t]: current term id; [low] = lower_bound; [cnt] = num_postings_in_block; [un] = union_of_lists.
    std::sort and std::unique as in deduplicate. An empty block makes std::max_element undefined. *)
Fixpoint split_blocks (m : nat) (lists : list (list nat)) (t low cnt : nat) (un : list nat) (terms : list (list nat))
  : res (list blk) :=
  match lists with
  | [] => Ok []
  | l :: lists' =>
      let un := un ++ l in
      let cnt := cnt + length l in
      do terms <- add_docs terms (t - low) l;
      if (m <=? cnt) || match lists' with [] => true | _ => false end then
        let docs := deduplicate un in
        do (sets, terms) <- take_sets terms docs;
        if length (concat sets) =? 0 then UB else
        do rest <- split_blocks m lists' (t + 1) t 0 [] terms;
        Ok ({| blk_bound := t; blk_docs := docs; blk_sets := sets |} :: rest)
      else split_blocks m lists' (t + 1) low cnt un terms
  end.

(** blocked_inverted_index.hpp:91-109: offset_list. *)
Fixpoint offsets_from (o : nat) (sets : list (list nat)) : list nat :=
  match sets with
  | [] => [o]
  | s :: sets' => o :: offsets_from (o + length s) sets'
  end.

Section Blocked.
  Variable K : bcontainers.

  (** blocked_inverted_index.hpp:443-454. *)
  Record bindex := {
    bi_docs_num : nat;
    bi_bounds : list nat;
    bi_lists : nat -> res (k_It K);
    bi_offsets : nat -> res (nat -> res nat);
    bi_terms : nat -> res (nat -> res nat)
  }.

  (** blocked_inverted_index.hpp:22-139 and 163-179, without m_minimal_doc_ids (not used by autocomplete4). *)
  Definition bi_build (m u : nat) (lists : list (list nat)) : res bindex :=
    do bs <- split_blocks m lists 1 1 0 [] (repeat [] u);
    do docs <- b_lists K u (map blk_docs bs);
    do offs <- b_offsets K (map (fun b => offsets_from 0 (blk_sets b)) bs);
    do trms <- b_terms K (map (fun b => concat (blk_sets b)) bs);
    Ok {| bi_docs_num := u; bi_bounds := map blk_bound bs; bi_lists := docs; bi_offsets := offs; bi_terms := trms |}.

  Variable ii : bindex.
  Let u := bi_docs_num ii.
  Let ops := k_ops K u.

  (** std::upper_bound on a sorted range (blocked_inverted_index.hpp:249). *)
  Fixpoint upper_bound (l : list nat) (t : nat) : nat :=
    match l with
    | [] => 0
    | x :: l' => if t <? x then 0 else S (upper_bound l' t)
    end.
  (** blocked_inverted_index.hpp:248-253 block_id. *)
  Definition block_id (t : nat) : nat :=
    let id := upper_bound (bi_bounds ii) t in
    if (0 <? id) && (nth (id - 1) (bi_bounds ii) 0 =? t) then id - 1 else id.

  (** blocked_inverted_index.hpp:260-266 block_type. *)
  Record block := {
    bk_docs : k_It K;
    bk_off : nat -> res nat;
    bk_trm : nat -> res nat;
    bk_ids : list nat;
    bk_low : nat
  }.
  (** As above: blocked_inverted_index.hpp:260-266. *)
  Definition with_docs (b : block) (it : k_It K) : block :=
    {| bk_docs := it; bk_off := bk_off b; bk_trm := bk_trm b; bk_ids := bk_ids b; bk_low := bk_low b |}.

  (** blocked_inverted_index.hpp:399-426 block, with the term ids pushed by the intersection iterator (blocked_inverted_index.hpp:290-294, 300-304). *)
  Definition open_block (id : nat) (ids : list nat) : res block :=
    do low <- (if 0 <? id then get (bi_bounds ii) (id - 1) else Ok 1);
    do it <- bi_lists ii id;
    do off <- bi_offsets ii id;
    do trm <- bi_terms ii id;
    Ok {| bk_docs := it; bk_off := off; bk_trm := trm; bk_ids := ids; bk_low := low |}.

  (** blocked_inverted_index.hpp:356-362: the inner loop of in(): look for [x] among [n] entries from [i] on. *)
  Fixpoint find_term (trm : nat -> res nat) (low x i n : nat) : res (option (nat * nat)) :=
    match n with
    | O => Ok None
    | S n' =>
        do t <- trm i;
        if t + low =? x then Ok (Some (i, n)) else find_term trm low x (i + 1) n'
    end.
  (** blocked_inverted_index.hpp:353-364. *)
  Fixpoint all_terms (trm : nat -> res nat) (low : nat) (ids : list nat) (i n : nat) : res bool :=
    match ids with
    | [] => Ok true
    | x :: ids' =>
        do o <- find_term trm low x i n;
        match o with
        | None => Ok false
        | Some (i, n) => all_terms trm low ids' i n
        end
    end.
  (** blocked_inverted_index.hpp:343-367 in(). *)
  Definition block_in (b : block) : res bool :=
    let pos := b_position K (bk_docs b) in
    if pos =? i_size ops (bk_docs b) then Ok false
    else
      do s <- bk_off b pos;
      do e <- bk_off b (pos + 1);
      if e <? s then UB
      else if e - s <? length (bk_ids b) then Ok false
      else all_terms (bk_trm b) (bk_low b) (bk_ids b) s (e - s).

  (** ef/compact_ef.hpp:137-148 next_geq_by_scan. *)
  Definition scan_step (lb : nat) (it : k_It K) : res (k_It K + k_It K) :=
    if i_has_next ops it then
      if lb <=? i_deref ops it then Ok (inr it)
      else do it <- i_next ops it; Ok (inl it)
    else Ok (inr it).
  (** As above: ef/compact_ef.hpp:137-148. *)
  Definition next_geq_by_scan (fuel lb : nat) (it : k_It K) : res (k_It K) := loop fuel (scan_step lb) it.

  (** blocked_inverted_index.hpp:335-341: m_candidate, m_i, m_blocks. *)
  Record binter := { y_cand : nat; y_i : nat; y_blocks : list block }.

  (** blocked_inverted_index.hpp:371-375: one iteration, single block. *)
  Definition single_step (x : binter) : res (binter + binter) :=
    if (y_cand x <? u) && negb (y_i x =? length (y_blocks x)) then
      do b <- get (y_blocks x) (y_i x);
      do it <- i_next ops (bk_docs b);
      let b := with_docs b it in
      do isin <- block_in b;
      Ok (inl {| y_cand := i_deref ops it; y_i := if isin : bool then y_i x + 1 else y_i x;
                 y_blocks := upd (y_blocks x) (y_i x) b |})
    else Ok (inr x).
  (** blocked_inverted_index.hpp:377-389: one iteration, several blocks. *)
  Definition multi_step (fuel : nat) (x : binter) : res (binter + binter) :=
    if (y_cand x <? u) && negb (y_i x =? length (y_blocks x)) then
      do b <- get (y_blocks x) (y_i x);
      do it <- next_geq_by_scan fuel (y_cand x) (bk_docs b);
      let b := with_docs b it in
      let val := i_deref ops it in
      do isin <- block_in b;
      let bs := upd (y_blocks x) (y_i x) b in
      if (val =? y_cand x) && isin
      then Ok (inl {| y_cand := y_cand x; y_i := y_i x + 1; y_blocks := bs |})
      else Ok (inl {| y_cand := val + (if isin : bool then 0 else 1); y_i := 0; y_blocks := bs |})
    else Ok (inr x).
  (** blocked_inverted_index.hpp:369-391 next(). *)
  Definition binter_next (fuel : nat) (x : binter) : res binter :=
    if length (y_blocks x) =? 1 then loop fuel single_step x else loop fuel (multi_step fuel) x.

  (** blocked_inverted_index.hpp:326-333 operator++. *)
  Definition binter_incr (fuel : nat) (x : binter) : res binter :=
    do x <- (if 1 <? length (y_blocks x) then
               do b <- get (y_blocks x) 0;
               do it <- i_next ops (bk_docs b);
               Ok {| y_cand := i_deref ops it; y_i := y_i x; y_blocks := upd (y_blocks x) 0 (with_docs b it) |}
             else Ok x);
    binter_next fuel {| y_cand := y_cand x; y_i := 0; y_blocks := y_blocks x |}.

  (** blocked_inverted_index.hpp:318-333. *)
  Definition binter_stream (fuel : nat) : stream_ops binter :=
    {| s_has_next := fun x => y_cand x <? u; s_deref := y_cand; s_next := binter_incr fuel |}.

  (** blocked_inverted_index.hpp:281-305: group the (sorted) term ids by block. [pend]: the ids not yet given to a block. *)
  Fixpoint group_terms (cur : nat) (pend ids : list nat) : res (list block) :=
    match ids with
    | [] => do b <- open_block cur pend; Ok [b]
    | x :: ids' =>
        let b := block_id x in
        if cur <? b then
          do bl <- open_block cur pend;
          do rest <- group_terms b [x] ids';
          Ok (bl :: rest)
        else group_terms b (pend ++ [x]) ids'
    end.

  (** blocked_inverted_index.hpp:269-316, the constructor. *)
  Definition binter_new (fuel : nat) (ids : list nat) : res binter :=
    match ids with
    | [] => UB
    | x :: _ =>
        do bs <- group_terms (block_id x) [] ids;
        let bs := b_sort K _ (fun b => i_size ops (bk_docs b)) bs in
        do b <- get bs 0;
        do it <- i_access0 ops (bk_docs b);
        binter_next fuel {| y_cand := i_deref ops it; y_i := 0; y_blocks := upd bs 0 (with_docs b it) |}
    end.

  (** ** autocomplete4.hpp *)
  (** autocomplete4.hpp:192-205: the blocks of the terms i, ..., i + n - 1, of which [cur] is the current one. *)
  Fixpoint range_blocks (i n cur boundary : nat) : res (list block) :=
    match n with
    | O => do b <- open_block cur []; Ok [b]
    | S n' =>
        if boundary <? i then
          do b <- open_block cur [];
          do boundary <- get (bi_bounds ii) (cur + 1);
          do rest <- range_blocks (i + 1) n' (cur + 1) boundary;
          Ok (b :: rest)
        else range_blocks (i + 1) n' cur boundary
    end.
  (** As above: autocomplete4.hpp:192-205. *)
  Definition suffix_blocks (rb re : nat) : res (list block) :=
    let cur := block_id rb in
    do boundary <- get (bi_bounds ii) cur;
    range_blocks rb (re - rb) cur boundary.

  (** autocomplete4.hpp:215-222: is there a term of the suffix range among the entries? *)
  Fixpoint check_terms (trm : nat -> res nat) (low rb re i n : nat) : res bool :=
    match n with
    | O => Ok false
    | S n' =>
        do t <- trm i;
        let t := t + low in
        if re <? t then Ok false
        else if (rb <=? t) && (t <=? re) then Ok true
        else check_terms trm low rb re (i + 1) n'
    end.
  (** autocomplete4.hpp:209-223 check. *)
  Definition check (rb re : nat) (b : block) : res bool :=
    let pos := b_position K (bk_docs b) in
    do s <- bk_off b pos;
    do e <- bk_off b (pos + 1);
    if e <? s then UB else check_terms (bk_trm b) (bk_low b) rb re s (e - s).

  (** As above: autocomplete4.hpp:209-223. *)
  Definition block_key (b : block) : nat := i_deref ops (bk_docs b).

  (** autocomplete4.hpp:226-234: no prefix; one iteration. *)
  Definition union_step (k rb re : nat) (s : list block * list nat * nat)
    : res ((list block * list nat * nat) + (nat * list nat)) :=
    let '(q, scores, results) := s in
    match q with
    | [] => Ok (inr (results, scores))
    | z :: _ =>
        let doc := block_key z in
        do hit <- check rb re z;
        do (results, scores) <-
           (if hit : bool then do scores <- set scores results doc; Ok (results + 1, scores) else Ok (results, scores));
        if results =? k then Ok (inr (results, scores))
        else
          do it <- i_next ops (bk_docs z);
          let q := upd q 0 (with_docs z it) in
          do q <- (if i_has_next ops it then Ok q else heap_pop block_key (k_heap K block) q);
          do q <- heapify block_key q;
          Ok (inl (q, scores, results))
    end.

  (** autocomplete4.hpp:240-258: one iteration of the inner loop for document [doc]. The result says whether
      check was called, and its outcome. *)
  Definition conj4_inner_step (rb re doc : nat) (q : list block)
    : res (list block + (list block * option bool)) :=
    match q with
    | [] => Ok (inr (q, None))
    | z :: _ =>
        let val := block_key z in
        if doc <? val then Ok (inr (q, None))
        else if val <? doc then
          do it <- i_next_geq ops (bk_docs z) doc;
          let q := upd q 0 (with_docs z it) in
          do q <- (if i_has_next ops it then heapify block_key q else heap_pop block_key (k_heap K block) q);
          Ok (inl q)
        else
          do hit <- check rb re z;
          Ok (inr (q, Some hit))
    end.

  (** autocomplete4.hpp:238-259: one iteration of the outer loop. *)
  Definition conj4_step (fuel k rb re : nat) (s : binter * list block * list nat * nat)
    : res ((binter * list block * list nat * nat) + (nat * list nat)) :=
    let ops := binter_stream fuel in
    let '(it, q, scores, results) := s in
    if negb (s_has_next ops it) || (length q =? 0) then Ok (inr (results, scores))
    else
      let doc := s_deref ops it in
      do (q, o) <- loop fuel (conj4_inner_step rb re doc) q;
      match o with
      | None => do it <- s_next ops it; Ok (inl (it, q, scores, results))
      | Some hit =>
          do (results, scores) <-
             (if hit : bool then do scores <- set scores results doc; Ok (results + 1, scores) else Ok (results, scores));
          if results =? k then Ok (inr (results, scores))
          else do it <- s_next ops it; Ok (inl (it, q, scores, results))
      end.

  (** autocomplete4.hpp:185-263 conjunctive_topk(prefix, suffix, k). *)
  Definition bi_conjunctive (fuel k : nat) (prefix : list nat) (rb re : nat) (scores : list nat) : res (nat * list nat) :=
    do bs <- suffix_blocks rb re;
    let q := make_heap (k_heap K block) block_key bs in
    if length prefix =? 0 then loop fuel (union_step k rb re) (q, scores, 0)
    else
      do it <- binter_new fuel (deduplicate prefix);
      loop fuel (conj4_step fuel k rb re) (it, q, scores, 0).
End Blocked.

(** autocomplete4.hpp:149-154. *)
Record index4 (K : bcontainers) := { a4_core : core; a4_inverted : bindex K }.
Arguments a4_core {K} _.
Arguments a4_inverted {K} _.

(** autocomplete4.hpp:25-38; [m] as in split_blocks. *)
Definition ac4_build (K : bcontainers) (m : nat) (f : files) : res (index4 K) :=
  do co <- core_build K f;
  do ii <- bi_build K m (f_universe f) (f_inverted f);
  Ok {| a4_core := co; a4_inverted := ii |}.

(** autocomplete4.hpp:40-72 prefix_topk. *)
Definition ac4_prefix_topk (K : bcontainers) (x : index4 K) (fuel k : nat) (query : list N) (s : state2) : res state2 :=
  core_prefix_topk K (a4_core x) fuel k query s.

(** autocomplete4.hpp:74-102 conjunctive_topk(query, k). *)
Definition ac4_conjunctive_topk (K : bcontainers) (x : index4 K) (fuel k : nat) (query : list N) (s : state2) : res state2 :=
  do (o, s) <- start (a4_core x) false query s;
  match o with
  | None => Ok s
  | Some (prefix, rb, re) =>
      do (num, scores) <- bi_conjunctive K (a4_inverted x) fuel k prefix (rb + 1) (re + 1) (p_scores (s2_pool s));
      finish (a4_core x) num scores s
  end.

(** As above: autocomplete4.hpp:74-102. *)
Definition ac4_request (K : bcontainers) (x : index4 K) (fuel : nat) (r : request) (s : state2) : res state2 :=
  if rq_conj r then ac4_conjunctive_topk K x fuel (rq_k r) (rq_text r) s
  else ac4_prefix_topk K x fuel (rq_k r) (rq_text r) s.
