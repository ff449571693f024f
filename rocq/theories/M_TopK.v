(** Model of the top-k searches: include/unsorted_list.hpp, include/minimal_docids.hpp and
    heap_topk of include/autocomplete_common.hpp. No proofs.
    Doc ids, terms and positions are [nat]. The vector of scores (scored_string_pool::scores) is a
    list of fixed length; writing past its end is [UB]. *)
From Verif Require Import Base M_Heap M_Iter M_Parse.

(** unsorted_list.hpp:10, minimal_docids.hpp:10. *)
Definition SCAN_THRESHOLD : nat := 64.

(** std::binary_search; undefined on an unsorted range (autocomplete_common.hpp:58, minimal_docids.hpp:41, unsorted_list.hpp:46). *)
Fixpoint sorted_leb (l : list nat) : bool :=
  match l with
  | x :: (y :: _) as t => (x <=? y) && sorted_leb t
  | _ => true
  end.
(** autocomplete_common.hpp:58, minimal_docids.hpp:41, unsorted_list.hpp:46. *)
Definition binary_search (l : list nat) (v : nat) : res bool :=
  if sorted_leb l then Ok (existsb (Nat.eqb v) l) else UB.

(** util_types.hpp:61-69 scored_range. *)
Record scored_range := { sr_begin : nat; sr_end : nat; sr_min_pos : nat; sr_min_val : nat }.

Section Lists.
  (** m_list (compact_vector) and m_rmq (cartesian_tree) of either class. *)
  Variable acc : nat -> res nat.
  Variable size : nat.
  Variable rmq : nat -> nat -> res nat.

  (** unsorted_list.hpp:135-146 = minimal_docids.hpp:117-128 rmq: scan from [i], [n] positions left.
      [min = None] stands for id_type(-1): no id exceeds it and an id equal to it can only
      replace the position by the same position. *)
  Fixpoint scan_rmq (i n : nat) (min : option nat) (pos : nat) : res nat :=
    match n with
    | O => Ok pos
    | S n' =>
        do val <- acc i;
        if match min with None => true | Some m => val <? m end
        then scan_rmq (i + 1) n' (Some val) i
        else scan_rmq (i + 1) n' min pos
    end.
  (** As above: unsorted_list.hpp:135-146, minimal_docids.hpp:117-128. *)
  Definition small_rmq (lo hi : nat) : res nat := scan_rmq lo (hi + 1 - lo) None lo.

  (** The choice made for sub-ranges, unsorted_list.hpp:57-61 and 69-73, minimal_docids.hpp:70-74 and
      82-86. *)
  Definition sub_rmq (lo hi : nat) : res nat :=
    if hi - lo <=? SCAN_THRESHOLD then small_rmq lo hi else rmq lo hi.

  (** As above: unsorted_list.hpp:57-61 and 69-73, minimal_docids.hpp:70-74. *)
  Definition sub_range (lo hi : nat) : res scored_range :=
    do p <- sub_rmq lo hi;
    do v <- acc p;
    Ok {| sr_begin := lo; sr_end := hi; sr_min_pos := p; sr_min_val := v |}.

  (** The first range, unsorted_list.hpp:34-36, minimal_docids.hpp:30-32 ([r.end] exclusive). *)
  Definition whole_range (r_begin r_end : nat) : res scored_range :=
    match r_end with
    | O => UB
    | S e =>
        do p <- rmq r_begin e;
        do v <- acc p;
        Ok {| sr_begin := r_begin; sr_end := e; sr_min_pos := p; sr_min_val := v |}
    end.

  (** The two sub-ranges around the minimum: unsorted_list.hpp:54-76, minimal_docids.hpp:67-89. *)
  Definition left_range (r_begin min_pos : nat) : res (option scored_range) :=
    if (0 <? min_pos) && (r_begin <=? min_pos - 1) then
      do s <- sub_range r_begin (min_pos - 1); Ok (Some s)
    else Ok None.
  (** As above: unsorted_list.hpp:54-76, minimal_docids.hpp:67-89. *)
  Definition right_range (r_end min_pos : nat) : res (option scored_range) :=
    if (min_pos <? size - 1) && (min_pos + 1 <=? r_end) then
      do s <- sub_range (min_pos + 1) r_end; Ok (Some s)
    else Ok None.

  (** unsorted_list.hpp:24-31: everything in the range. *)
  Fixpoint copy_range (r_begin i n : nat) (topk : list nat) : res (list nat) :=
    match n with
    | O => Ok topk
    | S n' =>
        do v <- acc (r_begin + i);
        do topk <- set topk i v;
        copy_range r_begin (i + 1) n' topk
    end.

  Section UnsortedTopK.
    Variable std : heap_ops scored_range.
    Variable k : nat.
    Variable unique : bool.

    (** As above: unsorted_list.hpp:24-31. *)
    Definition opt_push (q : list scored_range) (o : option scored_range) : list scored_range :=
      match o with None => q | Some s => heap_push sr_min_val std q s end.

    (** unsorted_list.hpp:42-77: one iteration. State: queue, scores, number of results. *)
    Definition unsorted_step (s : list scored_range * list nat * nat)
      : res ((list scored_range * list nat * nat) + (nat * list nat)) :=
      let '(q, topk, i) := s in
      match q with
      | [] => Ok (inr (i, topk))
      | min :: _ =>
          do skip <- (if unique then binary_search (firstn i topk) (sr_min_val min) else Ok false);
          do (topk, i) <- (if skip : bool then Ok (topk, i)
                           else do topk <- set topk i (sr_min_val min); Ok (topk, i + 1));
          if negb skip && (i =? k) then Ok (inr (i, topk))
          else
            do q <- heap_pop sr_min_val std q;
            do l <- left_range (sr_begin min) (sr_min_pos min);
            let q := opt_push q l in
            do r <- right_range (sr_end min) (sr_min_pos min);
            let q := opt_push q r in
            Ok (inl (q, topk, i))
      end.

    (** unsorted_list.hpp:21-80 topk. *)
    Definition unsorted_topk (fuel r_begin r_end : nat) (topk : list nat) : res (nat * list nat) :=
      let range_len := r_end - r_begin in
      if range_len <=? k then
        do topk <- copy_range r_begin 0 range_len topk;
        Ok (range_len, sort_nat (firstn range_len topk) ++ skipn range_len topk)
      else
        do sr <- whole_range r_begin r_end;
        loop fuel unsorted_step (heap_push sr_min_val std [] sr, topk, 0).
  End UnsortedTopK.

  Section MinimalDocIds.
    Context {It : Type}.
    Variable ops : iter_ops It.
    Variable iterator : nat -> res It. (* index.iterator(term) *)

    (** util_types.hpp:71-106 scored_range_with_list_iterator; m_open = (iterator is [Some]). *)
    Definition open_range : Type := scored_range * option It.
    (** util_types.hpp:95-97 minimum. *)
    Definition minimum (e : open_range) : nat :=
      match snd e with Some it => i_deref ops it | None => sr_min_val (fst e) end.

    Variable std : heap_ops open_range.
    Variable k : nat.

    (** As above: util_types.hpp:95-97. *)
    Definition opt_push_closed (q : list open_range) (o : option scored_range) : list open_range :=
      match o with None => q | Some s => heap_push minimum std q (s, None) end.

    (** minimal_docids.hpp:38-91: one iteration. *)
    Definition minimal_step (s : list open_range * list nat * nat)
      : res ((list open_range * list nat * nat) + (nat * list nat)) :=
      let '(q, topk, results) := s in
      match q with
      | [] => Ok (inr (results, topk))
      | min :: _ =>
          let docid := minimum min in
          do present <- binary_search (firstn results topk) docid;
          do (topk, results) <- (if present : bool then Ok (topk, results)
                                 else do topk <- set topk results docid; Ok (topk, results + 1));
          if negb present && (results =? k) then Ok (inr (results, topk))
          else
            match snd min with
            | Some it =>
                do it <- i_next ops it;
                let q := upd q 0 (fst min, Some it) in
                do q <- (if i_has_next ops it then Ok q else heap_pop minimum std q);
                do q <- heapify minimum q;
                Ok (inl (q, topk, results))
            | None =>
                do it <- iterator (sr_min_pos (fst min));
                do it <- i_next ops it;
                let q := upd q 0 (fst min, Some it) in
                do q <- (if i_has_next ops it then Ok q else heap_pop minimum std q);
                do q <- heapify minimum q;
                do l <- left_range (sr_begin (fst min)) (sr_min_pos (fst min));
                let q := opt_push_closed q l in
                do r <- right_range (sr_end (fst min)) (sr_min_pos (fst min));
                let q := opt_push_closed q r in
                Ok (inl (q, topk, results))
            end
      end.

    (** minimal_docids.hpp:27-94 topk. *)
    Definition minimal_topk (fuel r_begin r_end : nat) (topk : list nat) : res (nat * list nat) :=
      do sr <- whole_range r_begin r_end;
      loop fuel minimal_step (heap_push minimum std [] (sr, None), topk, 0).
  End MinimalDocIds.
End Lists.

Section HeapTopK.
  Context {It : Type}.
  Variable ops : iter_ops It.
  Variable iterator : nat -> res It.
  Variable std : heap_ops It.
  Variable k : nat.

  (** autocomplete_common.hpp:48-50: iterators of terms [t], ..., [t + n - 1] (1-based). *)
  Fixpoint open_all (t n : nat) : res (list It) :=
    match n with
    | O => Ok []
    | S n' =>
        match t with
        | O => UB
        | S t' => do it <- iterator t'; do rest <- open_all (t + 1) n'; Ok (it :: rest)
        end
    end.

  (** autocomplete_common.hpp:55-67: one iteration. *)
  Definition heap_topk_step (s : list It * list nat * nat)
    : res ((list It * list nat * nat) + (nat * list nat)) :=
    let '(q, topk, results) := s in
    match q with
    | [] => Ok (inr (results, topk))
    | z :: _ =>
        let doc_id := i_deref ops z in
        do present <- binary_search (firstn results topk) doc_id;
        do (topk, results) <- (if present : bool then Ok (topk, results)
                               else do topk <- set topk results doc_id; Ok (topk, results + 1));
        if negb present && (results =? k) then Ok (inr (results, topk))
        else
          do z <- i_next ops z;
          let q := upd q 0 z in
          do q <- (if i_has_next ops z then Ok q else heap_pop (i_deref ops) std q);
          do q <- heapify (i_deref ops) q;
          Ok (inl (q, topk, results))
    end.

  (** autocomplete_common.hpp:36-70 heap_topk; [r_begin..r_end] inclusive, 1-based terms. *)
  Definition heap_topk (fuel r_begin r_end : nat) (topk : list nat) : res (nat * list nat) :=
    do its <- open_all r_begin (r_end + 1 - r_begin);
    loop fuel heap_topk_step (make_heap std (i_deref ops) its, topk, 0).
End HeapTopK.
