(** Model of ef_autocomplete_type1: include/autocomplete.hpp. No proofs. *)
From Verif Require Import Base M_Heap M_Iter M_Fc M_Parse M_Trie M_TopK M_Intersect M_Containers M_Auto.

Section Type1.
  Variable K : containers.

  (** autocomplete.hpp:158-165. *)
  Record index1 := {
    a1_completions : trie;
    a1_docs : ulist;
    a1_minimal : ulist;
    a1_dict : fcd;
    a1_inverted : nat -> res (k_It K);
    a1_universe : nat; (* m_inverted_index.num_docs() *)
    a1_forward : fwd
  }.

  (** autocomplete.hpp:19-33. The containers of the trie: completion_trie.hpp:129-151. *)
  Definition trie_store (ta : trie_arrays) : res trie :=
    do nodes <- map_res (k_seq K) (ta_nodes ta);
    do ptrs <- map_res (fun l => k_seq K (map N.of_nat l)) (ta_ptrs ta);
    do lefts <- map_res (fun l => k_seq K (map N.of_nat l)) (ta_left ta);
    do sizes <- map_res (fun l => k_seq K (map N.of_nat l)) (ta_sizes ta);
    Ok {| tr_nodes := nodes; tr_ptrs := ptrs; tr_left := lefts; tr_sizes := sizes |}.

  (** inverted_index.hpp:50: list.front() of every list. *)
  Definition minimal_doc_ids (lists : list (list nat)) : res (list nat) := map_res (fun l => get l 0) lists.

  (** As above: inverted_index.hpp:50. *)
  Definition ac1_build (f : files) : res index1 :=
    do ta <- trie_build (f_levels f) (f_mapped f);
    do dict <- fc_build (f_dict f);
    do mins <- minimal_doc_ids (f_inverted f);
    do inv <- k_lists K (f_universe f) (f_inverted f);
    do fw <- fwd_build K (length (f_dict f)) (f_forward f);
    do docs <- ulist_build K (ta_docs ta);
    do minimal <- ulist_build K mins;
    do tr <- trie_store ta;
    Ok {| a1_completions := tr; a1_docs := docs; a1_minimal := minimal; a1_dict := dict;
          a1_inverted := inv; a1_universe := f_universe f; a1_forward := fw |}.

  (** What a query leaves behind: the pool and the static buffers of the dictionary (autocomplete.hpp:167 m_pool; fc_dictionary.hpp:302-304 static decoded). *)
  Record state1 := { s1_pool : pool; s1_bufs : dict_bufs }.

  (** autocomplete.hpp:15-17: after the constructor. *)
  Definition state1_new : state1 := {| s1_pool := pool_new; s1_bufs := dict_bufs_new |}.

  Variable x : index1.
  Variable fuel : nat.
  Variable k : nat.

  (** autocomplete.hpp:200-221 extract_strings: the terms of result [i] from the forward index. *)
  Definition fwd_terms (scores : list nat) (i : nat) : res (list N) :=
    do doc <- get scores i;
    do (pos, n) <- fwd_iterator (a1_forward x) doc;
    map_res (fun j => fw_data (a1_forward x) (pos + j)) (seq 0 n).
  (** As above: autocomplete.hpp:200-221. *)
  Definition ac1_extract (num : nat) (p : pool) : res pool :=
    write_strings (a1_dict x) (fwd_terms (p_scores p)) 0 num p.

  (** autocomplete.hpp:35-66 prefix_topk. *)
  Definition ac1_prefix_topk (query : list N) (s : state1) : res state1 :=
    let p := pool_init (s1_pool s) in
    do (o, b) <- query_terms (a1_dict x) true query (s1_bufs s);
    match o with
    | None => Ok {| s1_pool := p; s1_bufs := b |}
    | Some (prefix, rb, re) =>
        do r <- trie_locate_prefix (a1_completions x) (map N.of_nat prefix) (N.of_nat (rb + 1)) (N.of_nat (re + 1));
        match r with
        | None => Ok {| s1_pool := p; s1_bufs := b |}
        | Some (lo, hi) =>
            let ul := a1_docs x in
            do (num, scores) <-
               unsorted_topk (ul_acc ul) (ul_size ul) (ul_rmq ul) (k_heap K scored_range) k false fuel lo hi (p_scores p);
            do p <- ac1_extract num {| p_scores := scores; p_offsets := p_offsets p; p_data := p_data p |};
            Ok {| s1_pool := p; s1_bufs := b |}
        end
    end.

  (** autocomplete.hpp:186-198 conjunctive_topk(it, r, k): one iteration. *)
  Section Conj.
    Context {St : Type}.
    Variable ops : stream_ops St.
    Definition conj1_step (rb re : nat) (s : St * list nat * nat) : res ((St * list nat * nat) + (nat * list nat)) :=
      let '(it, scores, results) := s in
      if negb (s_has_next ops it) then Ok (inr (results, scores))
      else
        let doc := s_deref ops it in
        do hit <- fwd_intersects (a1_forward x) doc rb re;
        if hit : bool then
          do scores <- set scores results doc;
          if results + 1 =? k then Ok (inr (results + 1, scores))
          else do it <- s_next ops it; Ok (inl (it, scores, results + 1))
        else do it <- s_next ops it; Ok (inl (it, scores, results)).
    (** As above: autocomplete.hpp:186-198. *)
    Definition conj1 (rb re : nat) (it : St) (scores : list nat) : res (nat * list nat) :=
      loop fuel (conj1_step rb re) (it, scores, 0).
  End Conj.

  (** autocomplete.hpp:175-184 conjunctive_topk(prefix, suffix, k). *)
  Definition ac1_conjunctive (prefix : list nat) (rb re : nat) (scores : list nat) : res (nat * list nat) :=
    let u := a1_universe x in
    match deduplicate prefix with
    | [] => UB (* prefix is not empty *)
    | [t] =>
        match t with
        | O => UB
        | S t => do it <- a1_inverted x t; conj1 (iter_stream (k_ops K u)) rb re it scores
        end
    | ids =>
        do it <- intersection (k_ops K u) u (a1_inverted x) (k_sort K) fuel ids;
        conj1 (inter_stream (k_ops K u) u fuel) rb re it scores
    end.

  (** autocomplete.hpp:68-101 conjunctive_topk(query, k). *)
  Definition ac1_conjunctive_topk (query : list N) (s : state1) : res state1 :=
    let p := pool_init (s1_pool s) in
    do (o, b) <- query_terms (a1_dict x) false query (s1_bufs s);
    match o with
    | None => Ok {| s1_pool := p; s1_bufs := b |}
    | Some (prefix, rb, re) =>
        do (num, scores) <-
           (if length prefix =? 0 then
              let ul := a1_minimal x in
              minimal_topk (ul_acc ul) (ul_size ul) (ul_rmq ul) (k_ops K (a1_universe x)) (a1_inverted x)
                (k_heap K _) k fuel rb (re + 1) (p_scores p)
            else ac1_conjunctive prefix (rb + 1) (re + 1) (p_scores p));
        do p <- ac1_extract num {| p_scores := scores; p_offsets := p_offsets p; p_data := p_data p |};
        Ok {| s1_pool := p; s1_bufs := b |}
    end.
End Type1.

(** A request to the index (autocomplete.hpp:35-101: the two public queries). *)
Definition ac1_request (K : containers) (x : index1 K) (fuel : nat) (r : request) (s : state1) : res state1 :=
  if rq_conj r then ac1_conjunctive_topk K x fuel (rq_k r) (rq_text r) s
  else ac1_prefix_topk K x fuel (rq_k r) (rq_text r) s.

