(** Model of the searches of include/util.hpp and of the node-array operations of
    include/uint_vec.hpp and include/ef/ef_sequence.hpp that use them. No proofs.
    A sequence is given by [acc] (access(i)) and [itr lo j] (value of the iterator
    at(lo) after j increments). Values are [N], positions [nat];
    global::not_found and empty answers are [None]. Simplification: sums do not wrap around (64 bits are enough for ef_sequence, S_Containers;
    for uint_vec see M_Narrow). *)
From Verif Require Import Base.

(** util.hpp:33. *)
Definition LINEAR_SCAN_THRESHOLD : nat := 8.

Section Searches.
  Variable acc : nat -> res N.
  Variable itr : nat -> nat -> res N.

  (** util.hpp:43-47 (hi excluded) and util.hpp:69-73 (hi included): scan [n] elements from
      the [j]-th one; [test] is the comparison. *)
  Fixpoint scan_from (test : N -> bool) (lo j n : nat) : res (option nat) :=
    match n with
    | O => Ok None
    | S n' =>
        do v <- itr lo j;
        if test v then Ok (Some (lo + j)) else scan_from test lo (j + 1) n'
    end.

  (** util.hpp:38-61 find. State (lo, hi). *)
  Definition find_step (id : N) (s : nat * nat) : res ((nat * nat) + option nat) :=
    let '(lo, hi) := s in
    if lo <=? hi then
      do found <- (if hi - lo <=? LINEAR_SCAN_THRESHOLD
                   then scan_from (fun v => (v =? id)%N) lo 0 (hi - lo) else Ok None);
      match found with
      | Some p => Ok (inr (Some p))
      | None =>
          let pos := lo + (hi - lo) / 2 in
          do val <- acc pos;
          if (val =? id)%N then Ok (inr (Some pos))
          else if (id <? val)%N then
            (if pos =? 0 then Ok (inr None) else Ok (inl (lo, pos - 1)))
          else Ok (inl (pos + 1, hi))
      end
    else Ok (inr None).

  (** As above: util.hpp:38-61. *)
  Definition find (id : N) (lo hi : nat) : res (option nat) :=
    loop (S (hi + 1 - lo)) (find_step id) (lo, hi).

  (** util.hpp:63-93 next_geq. *)
  Definition next_geq_step (lb : N) (s : nat * nat) : res ((nat * nat) + option nat) :=
    let '(lo, hi) := s in
    if lo <=? hi then
      if hi - lo <=? LINEAR_SCAN_THRESHOLD then
        do found <- scan_from (fun v => (lb <=? v)%N) lo 0 (hi - lo + 1);
        Ok (inr found)
      else
        let pos := (lo + hi) / 2 in
        do val <- acc pos;
        if (lb <? val)%N then
          let hi := if negb (pos =? 0) then pos - 1 else 0 in
          do v <- acc hi;
          if (v <? lb)%N then Ok (inr (Some pos)) else Ok (inl (lo, hi))
        else if (val <? lb)%N then Ok (inl (pos + 1, hi))
        else Ok (inr (Some pos))
    else Ok (inr None).

  (** As above: util.hpp:63-93. *)
  Definition next_geq (lb : N) (lo hi : nat) : res (option nat) :=
    loop (S (hi + 1 - lo)) (next_geq_step lb) (lo, hi).

  (** previous_range_upperbound, uint_vec.hpp:133-136 = ef_sequence.hpp:246-249. *)
  Definition prev_upper (r_begin : nat) : res N :=
    match r_begin with O => Ok 0%N | S b => acc b end.

  (** find(range, id), uint_vec.hpp:76-81 = ef_sequence.hpp:145-150. r.end - 1 wraps to
      2^64 - 1 for r.end = 0: the search then reads out of bounds. *)
  Definition seq_find (r_begin r_end : nat) (id : N) : res (option nat) :=
    do pu <- prev_upper r_begin;
    match r_end with
    | O => UB
    | S hi => find (id + pu)%N r_begin hi
    end.

  (** find(range, range), ef_sequence.hpp:152-166. *)
  Definition ef_find_range (r_begin r_end : nat) (lex_begin lex_end : N) : res (nat * nat) :=
    do pu <- prev_upper r_begin;
    let id_begin := (lex_begin + pu)%N in
    let id_end := (lex_end + pu)%N in
    match r_end with
    | O => UB
    | S hi =>
        do b <- next_geq id_begin r_begin hi;
        match b with
        | None => Ok (r_end, r_end)
        | Some b =>
            do v <- acc b;
            if (id_end <? v)%N then Ok (r_end, r_end)
            else if (lex_begin =? lex_end)%N then Ok (b, b + 1)
            else
              do e <- next_geq id_end b hi;
              match e with
              | None => Ok (b, r_end)
              | Some e => do v <- acc e; Ok (b, if negb (v =? id_end)%N then e else e + 1)
              end
        end
    end.

  (** find(range, range), uint_vec.hpp:83-105. *)
  Definition uv_find_range (r_begin r_end : nat) (lex_begin lex_end : N) : res (nat * nat) :=
    do pu <- prev_upper r_begin;
    match r_end with
    | O => UB
    | S hi =>
        do b <- next_geq (lex_begin + pu)%N r_begin hi;
        match b with
        | None => Ok (r_end, r_end)
        | Some b =>
            if (lex_begin =? lex_end)%N then Ok (b, b + 1)
            else
              let id_end := (lex_end + pu)%N in
              do e <- next_geq id_end b hi;
              match e with
              | None => Ok (b, r_end)
              | Some e => do v <- acc e; Ok (b, if negb (v =? id_end)%N then e else e + 1)
              end
        end
    end.
End Searches.

(** In-range prefix sums, the loop of uint_vec.hpp:30-44 = ef_sequence.hpp:36-50.
    [ps] = the pointers not yet read by pointers_it, [end_] = *pointers_it,
    [last] = last value written (None: none yet). Reading past the pointers is UB. *)
Fixpoint next_run (ps : list nat) (end_ : nat) : res (list nat * nat * nat) :=
  match ps with
  | [] => UB
  | p :: ps' => if p - end_ =? 0 then next_run ps' p else Ok (ps', p, p - end_)
  end.

(** As above: uint_vec.hpp:30-44, ef_sequence.hpp:36-50. *)
Fixpoint range_sums (from : list N) (ps : list nat) (end_ run within : nat) (prev last : N) : res (list N) :=
  match from with
  | [] => Ok []
  | v :: from' =>
      do (ps, end_, run, within, prev) <-
         (if within =? run then
            do (ps', e', run') <- next_run ps end_;
            Ok (ps', e', run', 0, last)
          else Ok (ps, end_, run, within, prev));
      let x := (v + prev)%N in
      do rest <- range_sums from' ps end_ run (within + 1) prev x;
      Ok (x :: rest)
  end.

(** uint_vec.hpp:18-47 = ef_sequence.hpp:20-54 up to the compression of the result.
    The unsigned run = end - start is taken as truncated: pointers never decrease. *)
Definition build_range_sums (from : list N) (pointers : list nat) : res (list N) :=
  match pointers with
  | start :: end_ :: ps => range_sums from ps end_ (end_ - start) 0 0 0
  | _ => UB
  end.
