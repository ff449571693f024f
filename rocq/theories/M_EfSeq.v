(** Model of include/ef/ef_sequence.hpp. No proofs.
    Values are [N], positions [nat]. The loops over the words of the high bits are given one step per word. *)
From Verif Require Import Base M_Word M_Bits M_Darray M_Find M_Trie.
Local Open Scope nat_scope.

(** ef/ef_sequence.hpp:215-219: the members. *)
Record efs := { ef_l : nat; ef_high : bv; ef_d1 : darray; ef_low : bv; ef_size : nat }.

(** ef/ef_sequence.hpp:231-239: the values; [i], [last] as in the code. *)
Fixpoint ef_fill (l : nat) (mask : N) (vs : list N) (i : nat) (last : N) (low high : bvb) : res (bvb * bvb) :=
  match vs with
  | [] => Ok (low, high)
  | v :: vs' =>
      if (0 <? i) && (v <? last)%N then Exn
      else
        do low <- (if l =? 0 then Ok low else bvb_append_bits low (N.land v mask) l);
        do h <- shr v l;
        do high <- bvb_set high (N.to_nat h + i) true;
        ef_fill l mask vs' (i + 1) v low high
  end.
(** ef/ef_sequence.hpp:223: m_l. *)
Definition ef_width (n : nat) (u : N) : res nat :=
  if n =? 0 then Ok 0
  else let q := (u / N.of_nat n)%N in if (q =? 0)%N then Ok 0 else msb q.
(** ef/ef_sequence.hpp:221-244 compress. *)
Definition ef_compress (vs : list N) (u : N) : res efs :=
  let n := length vs in
  do l <- ef_width n u;
  do h <- shr u l;
  do high <- bvb_new (n + N.to_nat h + 1) false;
  do m <- shl 1 l;
  do (low, high) <- ef_fill l (wsub m 1) vs 0 0 bvb_empty high;
  do d1 <- da_build false (bv_build high);
  Ok {| ef_l := l; ef_high := bv_build high; ef_d1 := d1; ef_low := bv_build low; ef_size := n |}.
(** ef/ef_sequence.hpp:15-18 build(from): from.back() of an empty vector is undefined. *)
Definition ef_build (vs : list N) : res efs :=
  match vs with
  | [] => UB
  | v :: _ => ef_compress vs (List.last vs v)
  end.
(** ef/ef_sequence.hpp:20-54 build(from, pointers). *)
Definition ef_build2 (from : list N) (pointers : list nat) : res efs :=
  do vs <- build_range_sums from pointers; ef_build vs.

(** As above: ef/ef_sequence.hpp:20-54. *)
Definition ef_fuel (e : efs) : nat := S (length (v_words (ef_high e))).
(** (high - i) << l | low; high >= i always holds (ef/ef_sequence.hpp:93-94, 105-106, 137-138). *)
Definition ef_value (l high i : nat) (low : N) : res N :=
  if high <? i then UB else do h <- shl (N.of_nat (high - i)) l; Ok (N.lor h low).
(** ef/ef_sequence.hpp:135-139 access. *)
Definition ef_access (e : efs) (i : nat) : res N :=
  do p <- da_select false (ef_d1 e) (ef_high e) (ef_fuel e) i;
  do low <- bv_get_bits (ef_low e) (i * ef_l e) (ef_l e);
  ef_value (ef_l e) p i low.
(** ef/ef_sequence.hpp:141-143 num_ones, 168-178: operator[], size, universe. *)
Definition ef_num_ones (e : efs) : nat := d_n (ef_d1 e).
(** As above: ef/ef_sequence.hpp:141-143. *)
Definition ef_range (e : efs) (i : nat) : res (N * N) := do a <- ef_access e i; do b <- ef_access e (i + 1); Ok (a, b).
(** As above: ef/ef_sequence.hpp:141-143. *)
Definition ef_universe (e : efs) : res N := if ef_size e =? 0 then UB else ef_access e (ef_size e - 1).

(** ** iterator, ef/ef_sequence.hpp:56-133 *)
Record efit := { x_val : N; x_pos : nat; x_high : nat; x_enum : uiter; x_buf : N; x_avail : nat }.
(** ef/ef_sequence.hpp:59-83: the constructor; an indeterminate m_high is 0. *)
Definition ef_at (e : efs) (pos : nat) : res efit :=
  do u <- ef_universe e;
  do (buf, avail) <- (if negb (ef_l e =? 0) then do w <- get_word64 (v_words (ef_low e)) (pos * ef_l e); Ok (w, 64 / ef_l e - 1)
                      else Ok (0%N, ef_num_ones e));
  if ef_num_ones e =? 0 then Ok {| x_val := u; x_pos := pos; x_high := 0; x_enum := {| u_pos := 0; u_buf := 0 |}; x_buf := buf; x_avail := avail |}
  else
    do b <- da_select false (ef_d1 e) (ef_high e) (ef_fuel e) pos;
    do en <- ui_new (v_words (ef_high e)) b;
    do (h, en) <- ui_next (v_words (ef_high e)) (ef_fuel e) en;
    Ok {| x_val := u; x_pos := pos; x_high := h; x_enum := en; x_buf := buf; x_avail := avail |}.
(** begin(), end(), ef/ef_sequence.hpp:180-186. *)
Definition ef_begin (e : efs) : res efit := ef_at e 0.
(** As above: ef/ef_sequence.hpp:180-186. *)
Definition ef_end (e : efs) : res efit := ef_at e (ef_size e).
(** ef/ef_sequence.hpp:87-90, 115-118: m_low_buf and m_chunks_avail at position [pos]. *)
Definition ef_refill (e : efs) (pos : nat) (buf : N) (avail : nat) : res (N * nat) :=
  match avail with
  | 0 => do w <- get_word64 (v_words (ef_low e)) (pos * ef_l e); Ok (w, (if ef_l e =? 0 then 0 else 64 / ef_l e) - 1)
  | S a => Ok (buf, a)
  end.
(** ef/ef_sequence.hpp:93-94, 105-106. *)
Definition ef_current (e : efs) (it : efit) (buf : N) : res N :=
  do m <- shl 1 (ef_l e); ef_value (ef_l e) (x_high it) (x_pos it) (N.land buf (wsub m 1)).
(** ef/ef_sequence.hpp:85-99 next. *)
Definition ef_next (e : efs) (it : efit) : res (N * efit) :=
  if x_pos it =? ef_size e then Ok (x_val it, it)
  else
    do (buf, avail) <- ef_refill e (x_pos it) (x_buf it) (x_avail it);
    do v <- ef_current e it buf;
    do buf <- shr buf (ef_l e);
    do (h, en) <- ui_next (v_words (ef_high e)) (ef_fuel e) (x_enum it);
    Ok (v, {| x_val := v; x_pos := x_pos it + 1; x_high := h; x_enum := en; x_buf := buf; x_avail := avail |}).
(** ef/ef_sequence.hpp:101-108 operator*. *)
Definition ef_deref (e : efs) (it : efit) : res N :=
  if x_pos it =? ef_size e then Ok (x_val it) else ef_current e it (x_buf it).
(** ef/ef_sequence.hpp:110-119 operator++. *)
Definition ef_incr (e : efs) (it : efit) : res efit :=
  if x_pos it + 1 =? ef_size e
  then Ok {| x_val := x_val it; x_pos := x_pos it + 1; x_high := x_high it; x_enum := x_enum it; x_buf := x_buf it; x_avail := x_avail it |}
  else
    do (h, en) <- ui_next (v_words (ef_high e)) (ef_fuel e) (x_enum it);
    do buf <- shr (x_buf it) (ef_l e);
    do (buf, avail) <- ef_refill e (x_pos it + 1) buf (x_avail it);
    Ok {| x_val := x_val it; x_pos := x_pos it + 1; x_high := h; x_enum := en; x_buf := buf; x_avail := avail |}.
(** As above: ef/ef_sequence.hpp:110-119. *)
Fixpoint ef_incrs (e : efs) (it : efit) (n : nat) : res efit :=
  match n with
  | 0 => Ok it
  | S n' => do it <- ef_incr e it; ef_incrs e it n'
  end.
(** The values of the first [n] calls of next() (ef/ef_sequence.hpp:85-99: a sequence of calls). *)
Fixpoint ef_nexts (e : efs) (it : efit) (n : nat) : res (list N) :=
  match n with
  | 0 => Ok []
  | S n' => do (v, it) <- ef_next e it; do vs <- ef_nexts e it n'; Ok (v :: vs)
  end.
(** for (it = at(lo), j = 0; ; ++j, ++it) ... *it (util.hpp:38-93: the searches over an iterator). *)
Definition ef_iterate (e : efs) (lo j : nat) : res N :=
  do it <- ef_at e lo; do it <- ef_incrs e it j; ef_deref e it.

(** An ef_sequence as a container of the trie and the indexes (completion_trie.hpp:272-276). *)
Definition ef_seqc (vs : list N) : res seqc :=
  do e <- ef_build vs;
  Ok {| q_size := ef_size e; q_acc := ef_access e; q_itr := ef_iterate e |}.
