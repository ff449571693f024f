(** Model of ef_autocomplete_type2 and ef_autocomplete_type3: include/autocomplete2.hpp and
    include/autocomplete3.hpp; the parts that autocomplete4.hpp repeats are here, too. No proofs. *)
From Verif Require Import Base M_Heap M_Iter M_Fc M_IntFc M_Parse M_Trie M_TopK M_Intersect M_Containers M_Auto M_Auto1.

(** building_util.hpp:9-18 invert; [size] zeros are overwritten. None = id_type(-1), which is not below size. *)
Fixpoint invert_from (m : list (option nat)) (doc_id size : nat) (v : list nat) : res (list nat) :=
  match m with
  | [] => Ok v
  | o :: m' =>
      do v <- match o with
              | Some lex => if lex <? size then set v lex doc_id else Ok v
              | None => Ok v
              end;
      invert_from m' (doc_id + 1) size v
  end.
(** As above: building_util.hpp:9-18. *)
Definition invert (docid_to_lexid : list (option nat)) (size : nat) : res (list nat) :=
  invert_from docid_to_lexid 0 size (repeat 0 size).

(** The words of a docid_to_lexid vector: id_type(-1) for unused doc ids (integer_fc_dictionary.hpp:22, 41, 51). *)
Definition lexid_word (o : option nat) : N := match o with Some i => N.of_nat i | None => 4294967295%N end.

(** integer_fc_dictionary.hpp:306: the static buffers [decoded] of left_locate and right_locate. What a query
    leaves behind: pool, static buffers, m_topk_completion_set (completions and sizes). *)
Record state2 := {
  s2_pool : pool;
  s2_bufs : dict_bufs;
  s2_left : list N;
  s2_right : list N;
  s2_comps : list (list N);
  s2_sizes : list nat
}.

(** autocomplete2.hpp:16-20 = autocomplete3.hpp:25-29 = autocomplete4.hpp:19-23; completion_set::resize. *)
Definition state2_new : state2 := {|
  s2_pool := pool_new; s2_bufs := dict_bufs_new;
  s2_left := repeat 0%N (2 * MAX_TERMS); s2_right := repeat 0%N (2 * MAX_TERMS);
  s2_comps := repeat (repeat 0%N (2 * MAX_TERMS)) MAX_K; s2_sizes := repeat 0 MAX_K |}.

(** m_completions, m_unsorted_docs_list, m_dictionary, m_docid_to_lexid (autocomplete2.hpp:167-173, autocomplete3.hpp:158-162, autocomplete4.hpp:150-154). *)
Record core := { co_comps : fcd; co_docs : ulist; co_dict : fcd; co_lexid : nat -> res N }.

Section Core.
  Variable K : containers.

  (** autocomplete2.hpp:22-36, autocomplete3.hpp:31-44, autocomplete4.hpp:25-38, without the inverted index. *)
  Definition core_build (f : files) : res core :=
    let n := length (f_mapped f) in
    do cm <- ifc_build (map snd (f_mapped f));
    do m <- ifc_docid_to_lexid (f_universe f) (map fst (f_mapped f));
    do dict <- fc_build (f_dict f);
    do lexid <- k_vec K (ceil_log2 (N.of_nat n + 1)) (map lexid_word m);
    do inv <- invert m n;
    do docs <- ulist_build K inv;
    Ok {| co_comps := cm; co_docs := docs; co_dict := dict; co_lexid := lexid |}.

  Variable x : core.
  Variable fuel : nat.
  Variable k : nat.

  (** autocomplete2.hpp:190-191 (= 216-217): the completion of a document, decoded to a buffer. *)
  Definition decode_doc (doc : nat) (buf : list N) : res (nat * list N) :=
    do lex <- co_lexid x doc;
    ifc_extract (co_comps x) (N.to_nat lex) buf.

  (** autocomplete2.hpp:184-194, autocomplete3.hpp:173-183, autocomplete4.hpp:165-175 extract_completions. *)
  Fixpoint extract_completions (scores : list nat) (i n : nat) (comps : list (list N)) (sizes : list nat)
    : res (list (list N) * list nat) :=
    match n with
    | O => Ok (comps, sizes)
    | S n' =>
        do doc <- get scores i;
        do buf <- get comps i;
        do (size, buf) <- decode_doc doc buf;
        do comps <- set comps i buf;
        (* uint8_t size *)
        do sizes <- set sizes i (size mod 256);
        extract_completions scores (i + 1) n' comps sizes
    end.

  (** autocomplete2.hpp:232-254, autocomplete3.hpp:240-262, autocomplete4.hpp:265-287 extract_strings. *)
  Definition set_terms (comps : list (list N)) (sizes : list nat) (i : nat) : res (list N) :=
    do c <- get comps i;
    do n <- get sizes i;
    slice c 0 n.
  (** As above: autocomplete2.hpp:232-254, autocomplete3.hpp:240-262, autocomplete4.hpp:265-287. *)
  Definition extract_strings (num : nat) (comps : list (list N)) (sizes : list nat) (p : pool) : res pool :=
    write_strings (co_dict x) (set_terms comps sizes) 0 num p.

  (** The last step of the queries: extract_completions, extract_strings (autocomplete2.hpp:64-69, autocomplete3.hpp:72-77, autocomplete4.hpp:66-71). *)
  Definition finish (num : nat) (scores : list nat) (s : state2) : res state2 :=
    let p := s2_pool s in
    do (comps, sizes) <- extract_completions scores 0 num (s2_comps s) (s2_sizes s);
    do p <- extract_strings num comps sizes {| p_scores := scores; p_offsets := p_offsets p; p_data := p_data p |};
    Ok {| s2_pool := p; s2_bufs := s2_bufs s; s2_left := s2_left s; s2_right := s2_right s;
          s2_comps := comps; s2_sizes := sizes |}.

  (** init() and the steps up to the range of the last token (autocomplete2.hpp:44-58, autocomplete3.hpp:52-66, autocomplete4.hpp:46-60). *)
  Definition start (must : bool) (query : list N) (s : state2) : res (option (list nat * nat * nat) * state2) :=
    do (o, b) <- query_terms (co_dict x) must query (s2_bufs s);
    Ok (o, {| s2_pool := pool_init (s2_pool s); s2_bufs := b; s2_left := s2_left s; s2_right := s2_right s;
              s2_comps := s2_comps s; s2_sizes := s2_sizes s |}).

  (** autocomplete2.hpp:38-70, autocomplete3.hpp:46-78, autocomplete4.hpp:40-72 prefix_topk. *)
  Definition core_prefix_topk (query : list N) (s : state2) : res state2 :=
    do (o, s) <- start true query s;
    match o with
    | None => Ok s
    | Some (prefix, rb, re) =>
        do (r, _, dl, dr) <-
           ifc_locate_prefix (co_comps x) (map N.of_nat prefix) (N.of_nat (rb + 1)) (N.of_nat (re + 1))
             (s2_left s) (s2_right s);
        let s := {| s2_pool := s2_pool s; s2_bufs := s2_bufs s; s2_left := dl; s2_right := dr;
                    s2_comps := s2_comps s; s2_sizes := s2_sizes s |} in
        match r with
        | None => Ok s
        | Some (lo, hi) =>
            let ul := co_docs x in
            do (num, scores) <-
               unsorted_topk (ul_acc ul) (ul_size ul) (ul_rmq ul) (k_heap K scored_range) k false fuel lo hi
                 (p_scores (s2_pool s));
            finish num scores s
        end
    end.
End Core.

(** ** Type 2 *)
Section Type2.
  Variable K : containers.

  (** autocomplete2.hpp:166-173. *)
  Record index2 := { a2_core : core; a2_minimal : ulist; a2_inverted : nat -> res (k_It K); a2_universe : nat }.

  (** autocomplete2.hpp:22-36. *)
  Definition ac2_build (f : files) : res index2 :=
    do co <- core_build K f;
    do mins <- minimal_doc_ids (f_inverted f);
    do inv <- k_lists K (f_universe f) (f_inverted f);
    do minimal <- ulist_build K mins;
    Ok {| a2_core := co; a2_minimal := minimal; a2_inverted := inv; a2_universe := f_universe f |}.

  Variable x : index2.
  Variable fuel : nat.
  Variable k : nat.

  Section Conj.
    Context {St : Type}.
    Variable ops : stream_ops St.

    (** autocomplete2.hpp:214-227: one iteration; [i] = number of results. *)
    Definition conj2_step (rb re : nat) (s : St * list nat * list (list N) * list nat * nat)
      : res ((St * list nat * list (list N) * list nat * nat) + (nat * list nat * list (list N) * list nat)) :=
      let '(it, scores, comps, sizes, i) := s in
      if negb (s_has_next ops it) then Ok (inr (i, scores, comps, sizes))
      else
        let doc := s_deref ops it in
        do buf <- get comps i;
        do (size, buf) <- decode_doc (a2_core x) doc buf;
        do comps <- set comps i buf;
        do ids <- slice buf 0 size;
        if existsb (fun t => (N.of_nat rb <=? t)%N && (t <=? N.of_nat re)%N) ids then
          do scores <- set scores i doc;
          do sizes <- set sizes i (size mod 256);
          if i + 1 =? k then Ok (inr (i + 1, scores, comps, sizes))
          else do it <- s_next ops it; Ok (inl (it, scores, comps, sizes, i + 1))
        else do it <- s_next ops it; Ok (inl (it, scores, comps, sizes, i)).
    (** autocomplete2.hpp:207-230. *)
    Definition conj2 (rb re : nat) (it : St) (scores : list nat) (comps : list (list N)) (sizes : list nat) :=
      loop fuel (conj2_step rb re) (it, scores, comps, sizes, 0).
  End Conj.

  (** autocomplete2.hpp:196-205 conjunctive_topk(prefix, suffix, k). *)
  Definition ac2_conjunctive (prefix : list nat) (rb re : nat) (scores : list nat) (comps : list (list N)) (sizes : list nat)
    : res (nat * list nat * list (list N) * list nat) :=
    let u := a2_universe x in
    match deduplicate prefix with
    | [] => UB (* prefix is not empty *)
    | [t] =>
        match t with
        | O => UB
        | S t => do it <- a2_inverted x t; conj2 (iter_stream (k_ops K u)) rb re it scores comps sizes
        end
    | ids =>
        do it <- intersection (k_ops K u) u (a2_inverted x) (k_sort K) fuel ids;
        conj2 (inter_stream (k_ops K u) u fuel) rb re it scores comps sizes
    end.

  (** autocomplete2.hpp:72-106 conjunctive_topk(query, k). *)
  Definition ac2_conjunctive_topk (query : list N) (s : state2) : res state2 :=
    do (o, s) <- start (a2_core x) false query s;
    match o with
    | None => Ok s
    | Some (prefix, rb, re) =>
        if length prefix =? 0 then
          let ul := a2_minimal x in
          do (num, scores) <-
             minimal_topk (ul_acc ul) (ul_size ul) (ul_rmq ul) (k_ops K (a2_universe x)) (a2_inverted x)
               (k_heap K _) k fuel rb (re + 1) (p_scores (s2_pool s));
          finish (a2_core x) num scores s
        else
          let p := s2_pool s in
          do (num, scores, comps, sizes) <-
             ac2_conjunctive prefix (rb + 1) (re + 1) (p_scores p) (s2_comps s) (s2_sizes s);
          do p <- extract_strings (a2_core x) num comps sizes
                    {| p_scores := scores; p_offsets := p_offsets p; p_data := p_data p |};
          Ok {| s2_pool := p; s2_bufs := s2_bufs s; s2_left := s2_left s; s2_right := s2_right s;
                s2_comps := comps; s2_sizes := sizes |}
    end.

  (** As above: autocomplete2.hpp:72-106. *)
  Definition ac2_prefix_topk (query : list N) (s : state2) : res state2 := core_prefix_topk K (a2_core x) fuel k query s.
End Type2.

(** ** Type 3 *)
Section Type3.
  Variable K : containers.

  (** autocomplete3.hpp:157-162. *)
  Record index3 := { a3_core : core; a3_inverted : nat -> res (k_It K); a3_universe : nat }.

  (** autocomplete3.hpp:31-44. *)
  Definition ac3_build (f : files) : res index3 :=
    do co <- core_build K f;
    do inv <- k_lists K (f_universe f) (f_inverted f);
    Ok {| a3_core := co; a3_inverted := inv; a3_universe := f_universe f |}.

  Variable x : index3.
  Variable fuel : nat.
  Variable k : nat.

  Section Conj.
    Context {St : Type}.
    Variable ops : stream_ops St.
    Let iops := k_ops K (a3_universe x).
    Let std := k_heap K (k_It K).

    (** autocomplete3.hpp:216-234: one iteration of the inner loop for document [doc]. Result: the queue and
        whether the document is a hit. *)
    Definition conj3_inner_step (doc : nat) (q : list (k_It K)) : res (list (k_It K) + (list (k_It K) * bool)) :=
      match q with
      | [] => Ok (inr (q, false))
      | z :: _ =>
          let val := i_deref iops z in
          if doc <? val then Ok (inr (q, false))
          else
            do (val, q) <-
               (if val <? doc then
                  do z <- i_next_geq iops z doc;
                  let q := upd q 0 z in
                  do q <- (if negb (i_has_next iops z) then heap_pop (i_deref iops) std q
                           else heapify (i_deref iops) q);
                  Ok (i_deref iops z, q)
                else Ok (val, q));
            if val =? doc then Ok (inr (q, true)) else Ok (inl q)
      end.

    (** autocomplete3.hpp:214-235: one iteration of the outer loop. *)
    Definition conj3_step (s : St * list (k_It K) * list nat * nat)
      : res ((St * list (k_It K) * list nat * nat) + (nat * list nat)) :=
      let '(it, q, scores, results) := s in
      if negb (s_has_next ops it) || (length q =? 0) then Ok (inr (results, scores))
      else
        let doc := s_deref ops it in
        do (q, hit) <- loop fuel (conj3_inner_step doc) q;
        if hit : bool then
          do scores <- set scores results doc;
          if results + 1 =? k then Ok (inr (results + 1, scores))
          else do it <- s_next ops it; Ok (inl (it, q, scores, results + 1))
        else do it <- s_next ops it; Ok (inl (it, q, scores, results)).

    (** autocomplete3.hpp:200-238. *)
    Definition conj3 (rb re : nat) (it : St) (scores : list nat) : res (nat * list nat) :=
      do q <- open_all (a3_inverted x) rb (re + 1 - rb);
      loop fuel conj3_step (it, make_heap std (i_deref iops) q, scores, 0).
  End Conj.

  (** autocomplete3.hpp:185-198 conjunctive_topk(prefix, suffix_lex_range, k). *)
  Definition ac3_conjunctive (prefix : list nat) (rb re : nat) (scores : list nat) : res (nat * list nat) :=
    let u := a3_universe x in
    if length prefix =? 0 then heap_topk (k_ops K u) (a3_inverted x) (k_heap K _) k fuel rb re scores
    else
      match deduplicate prefix with
      | [] => UB
      | [t] =>
          match t with
          | O => UB
          | S t => do it <- a3_inverted x t; conj3 (iter_stream (k_ops K u)) rb re it scores
          end
      | ids =>
          do it <- intersection (k_ops K u) u (a3_inverted x) (k_sort K) fuel ids;
          conj3 (inter_stream (k_ops K u) u fuel) rb re it scores
      end.

  (** autocomplete3.hpp:80-108 conjunctive_topk(query, k). *)
  Definition ac3_conjunctive_topk (query : list N) (s : state2) : res state2 :=
    do (o, s) <- start (a3_core x) false query s;
    match o with
    | None => Ok s
    | Some (prefix, rb, re) =>
        do (num, scores) <- ac3_conjunctive prefix (rb + 1) (re + 1) (p_scores (s2_pool s));
        finish (a3_core x) num scores s
    end.

  (** As above: autocomplete3.hpp:80-108. *)
  Definition ac3_prefix_topk (query : list N) (s : state2) : res state2 := core_prefix_topk K (a3_core x) fuel k query s.
End Type3.

(** Requests (autocomplete2.hpp:38-106: the public queries). *)
Definition ac2_request (K : containers) (x : index2 K) (fuel : nat) (r : request) (s : state2) : res state2 :=
  if rq_conj r then ac2_conjunctive_topk K x fuel (rq_k r) (rq_text r) s
  else ac2_prefix_topk K x fuel (rq_k r) (rq_text r) s.
(** autocomplete3.hpp:46-108: the public queries. *)
Definition ac3_request (K : containers) (x : index3 K) (fuel : nat) (r : request) (s : state2) : res state2 :=
  if rq_conj r then ac3_conjunctive_topk K x fuel (rq_k r) (rq_text r) s
  else ac3_prefix_topk K x fuel (rq_k r) (rq_text r) s.
