(** Model of include/ef/compact_ef.hpp and include/ef/ef_parameters.hpp. No proofs.
    Values and the universe are [N]; sizes, positions in the list and bit positions are [nat] (simplification: these do not
    wrap at 2^64). *)
From Verif Require Import Base M_Word M_Bits M_Iter.
Local Open Scope nat_scope.

(** ef_parameters.hpp:6-13 and 41-57: log_sampling0 = 9, log_sampling1 = 8. *)
Record ofs := {
  o_u : N; o_n : nat; o_l : nat; o_mask : N; o_hlen : nat; o_psize : nat;
  o_p0 : nat; o_p1 : nat; o_high : nat; o_low : nat; o_end : nat
}.
(** ef_parameters.hpp:18-39. *)
Definition ofs_new (base : nat) (u : N) (n : nat) : res ofs :=
  do l <- (if (N.of_nat n <? u)%N then if n =? 0 then UB else msb (u / N.of_nat n) else Ok 0);
  do m <- shl 1 l;
  do h <- shr u l;
  let hlen := n + N.to_nat h + 2 in
  do ps <- ceil_log2_w (N.of_nat hlen);
  let p1 := base + (hlen - n) / 512 * ps in
  let high := p1 + n / 256 * ps in
  let low := high + hlen in
  Ok {| o_u := u; o_n := n; o_l := l; o_mask := wsub m 1; o_hlen := hlen; o_psize := ps;
        o_p0 := base; o_p1 := p1; o_high := high; o_low := low; o_end := low + n * l |}.

(** ** build, compact_ef.hpp:15-79 *)
(** ef/compact_ef.hpp:28-42 set_ptr0s: the loop over ptr0. *)
Definition ptr0_step (o : ofs) (end_zeros rank_end : nat) (s : nat * bvb) : res ((nat * bvb) + bvb) :=
  let '(ptr0, b) := s in
  if 512 * ptr0 <? end_zeros then
    if ptr0 =? 0 then Ok (inl (ptr0 + 1, b))
    else
      do b <- bvb_set_bits b (o_p0 o + (ptr0 - 1) * o_psize o) (N.of_nat (512 * ptr0 + rank_end)) (o_psize o);
      Ok (inl (ptr0 + 1, b))
  else Ok (inr b).
(** As above: ef/compact_ef.hpp:28-42. *)
Definition set_ptr0s (o : ofs) (b : bvb) (begin_ end_ rank_end : nat) : res bvb :=
  let begin_zeros := begin_ - rank_end in
  let end_zeros := end_ - rank_end in
  loop (S (S end_zeros)) (ptr0_step o end_zeros rank_end) ((begin_zeros + 511) / 512, b).
(** ef/compact_ef.hpp:44-75: the values; [last], [last_high] as in the code. *)
Fixpoint ce_fill (o : ofs) (vs : list N) (i : nat) (last : N) (last_high : nat) (b : bvb) : res (bvb * nat) :=
  match vs with
  | [] => Ok (b, last_high)
  | v :: vs' =>
      if (0 <? i) && (v <? last)%N then Exn
      else
        do h <- shr v (o_l o);
        let high := N.to_nat h + i + 1 in
        let low := N.land v (o_mask o) in
        do b <- bvb_set b (o_high o + high) true;
        do b <- bvb_set_bits b (o_low o + i * o_l o) low (o_l o);
        do b <- (if (0 <? i) && (i mod 256 =? 0)
                 then bvb_set_bits b (o_p1 o + (i / 256 - 1) * o_psize o) (N.of_nat high) (o_psize o) else Ok b);
        do b <- set_ptr0s o b (last_high + 1) high i;
        ce_fill o vs' (i + 1) v high b
  end.
(** As above: ef/compact_ef.hpp:44-75. *)
Definition ce_build (b : bvb) (u : N) (vs : list N) : res bvb :=
  let n := length vs in
  let base := b_size b in
  do o <- ofs_new base u n;
  let b := bvb_zero_extend b (o_end o - base) in
  do (b, last_high) <- ce_fill o vs 0 0 0 b;
  set_ptr0s o b (last_high + 1) (o_hlen o) n.

(** ** iterator, compact_ef.hpp:81-362 *)
(** m_bv (its words, and what an 8-byte load past the end finds), m_of, m_position, m_value, m_high_enumerator (ef/compact_ef.hpp:356-361: the members). *)
Record ceit := { c_ws : list N; c_tail : N; c_of : ofs; c_pos : nat; c_val : N; c_en : uiter }.
(** ef/compact_ef.hpp:175-177. *)
Definition c_size (it : ceit) : nat := o_n (c_of it).
(** the fuel of the loops at ef/compact_ef.hpp:228-297. *)
Definition c_fuel (it : ceit) : nat := S (length (c_ws it)).
(** ef/compact_ef.hpp:99-107. *)
Definition c_moved (it : ceit) (pos : nat) (val : N) (en : uiter) : ceit :=
  {| c_ws := c_ws it; c_tail := c_tail it; c_of := c_of it; c_pos := pos; c_val := val; c_en := en |}.
(** ef/compact_ef.hpp:305-309. *)
Definition c_next_one (it : ceit) (en : uiter) : res (nat * uiter) := ui_next (c_ws it) (c_fuel it) en.

(** (high - hoff - pos - 1) << l | low, ef/compact_ef.hpp:126-129, 307-308, 326-330; the difference is never negative. *)
Definition c_value (it : ceit) (high pos : nat) (low : N) : res N :=
  let o := c_of it in
  if high <? o_high o + pos + 1 then UB
  else do h <- shl (N.of_nat (high - o_high o - pos - 1)) (o_l o); Ok (N.lor h low).
(** ef/compact_ef.hpp:299-303 read_low. *)
Definition c_read_low (it : ceit) (pos : nat) : res N :=
  let o := c_of it in
  do w <- get_word56 (c_ws it) (c_tail it) (o_low o + pos * o_l o); Ok (N.land w (o_mask o)).
(** ef/compact_ef.hpp:305-309 read_next at [pos], and one call of a next_reader standing at [pos], ef/compact_ef.hpp:311-337. *)
Definition c_read_next (it : ceit) (pos : nat) (en : uiter) : res (N * uiter) :=
  do (high, en) <- c_next_one it en;
  do low <- c_read_low it pos;
  do v <- c_value it high pos low;
  Ok (v, en).
(** ef/compact_ef.hpp:339-354: pointer, pointer0, pointer1. *)
Definition c_pointer (it : ceit) (offset i : nat) : res nat :=
  if i =? 0 then Ok 0
  else
    do w <- get_word56 (c_ws it) (c_tail it) (offset + (i - 1) * o_psize (c_of it));
    do m <- shl 1 (o_psize (c_of it));
    Ok (N.to_nat (N.land w (wsub m 1))).

(** ef/compact_ef.hpp:99-107 operator++ = ef/compact_ef.hpp:179-188 next. *)
Definition c_next (it : ceit) : res ceit :=
  let pos := c_pos it + 1 in
  if pos <? c_size it then do (v, en) <- c_read_next it pos (c_en it); Ok (c_moved it pos v en)
  else Ok (c_moved it pos (o_u (c_of it)) (c_en it)).
(** ef/compact_ef.hpp:228-252 slow_access. *)
Definition c_slow_access (it : ceit) (position : nat) : res ceit :=
  let o := c_of it in
  if position =? c_size it then Ok (c_moved it position (o_u o) (c_en it))
  else
    let skip := position - c_pos it in
    do (en, to_skip) <-
       (if (c_pos it <? position) && (skip / 256 =? 0) then Ok (c_en it, skip - 1)
        else
          let ptr := position / 256 in
          do high_pos <- c_pointer it (o_p1 o) ptr;
          do en <- ui_new (c_ws it) (o_high o + high_pos);
          Ok (en, position - 256 * ptr));
    do en <- ui_skip (c_ws it) (c_fuel it) en to_skip;
    do (v, en) <- c_read_next it position en;
    Ok (c_moved it position v en).
(** ef/compact_ef.hpp:122-125: he.next(), [n] times; he.position() is the result of the last one. *)
Fixpoint c_skip_next (it : ceit) (en : uiter) (n : nat) : res uiter :=
  match n with
  | 0 => Ok en
  | S n' => do (_, en) <- c_next_one it en; c_skip_next it en n'
  end.
(** ef/compact_ef.hpp:113-135 access. *)
Definition c_access (it : ceit) (position : nat) : res ceit :=
  let skip := position - c_pos it in
  if (c_pos it <? position) && (skip <=? 8) then
    if position =? c_size it then Ok (c_moved it position (o_u (c_of it)) (c_en it))
    else
      do he <- c_skip_next it (c_en it) skip;
      do low <- c_read_low it position;
      do v <- c_value it (u_pos he) position low;
      Ok (c_moved it position v he)
  else c_slow_access it position.
(** ef/compact_ef.hpp:159-170: the scan of next_geq. State: position, enumerator. *)
Definition c_scan_step (it : ceit) (lb : N) (s : nat * uiter) : res ((nat * uiter) + ceit) :=
  let '(pos, en) := s in
  let pos := pos + 1 in
  if pos <? c_size it then
    do (v, en) <- c_read_next it pos en;
    if (v <? lb)%N then Ok (inl (pos, en)) else Ok (inr (c_moved it pos v en))
  else Ok (inr (c_moved it pos (o_u (c_of it)) en)).
(** ef/compact_ef.hpp:284-296: the scan of slow_next_geq. *)
Definition c_slow_scan_step (it : ceit) (lb : N) (s : nat * uiter) : res ((nat * uiter) + ceit) :=
  let '(pos, en) := s in
  if pos =? c_size it then Ok (inr (c_moved it pos (o_u (c_of it)) en))
  else
    do (v, en) <- c_read_next it pos en;
    if (lb <=? v)%N then Ok (inr (c_moved it pos v en)) else Ok (inl (pos + 1, en)).
(** ef/compact_ef.hpp:254-297 slow_next_geq. *)
Definition c_slow_next_geq (it : ceit) (lb : N) : res ceit :=
  let o := c_of it in
  if (o_u o <=? lb)%N then c_access it (c_size it)
  else
    do hlb <- shr lb (o_l o);
    do hcur <- shr (c_val it) (o_l o);
    let hlb := N.to_nat hlb in
    let diff := hlb - N.to_nat hcur in
    do (en, to_skip) <-
       (if (c_val it <? lb)%N && (diff / 512 =? 0) then Ok (c_en it, diff)
        else
          let ptr := hlb / 512 in
          do high_pos <- c_pointer it (o_p0 o) ptr;
          do en <- ui_new (c_ws it) (o_high o + high_pos);
          Ok (en, hlb - 512 * ptr));
    do en <- ui_skip0 (c_ws it) (c_fuel it) en to_skip;
    if u_pos en <? o_high o + hlb then UB
    else loop (S (S (c_size it))) (c_slow_scan_step it lb) (u_pos en - o_high o - hlb, en).
(** ef/compact_ef.hpp:150-173 next_geq. *)
Definition c_next_geq (it : ceit) (lb : N) : res ceit :=
  let o := c_of it in
  do hlb <- shr lb (o_l o);
  do hcur <- shr (c_val it) (o_l o);
  if (c_val it <? lb)%N && (hlb - hcur <=? 8)%N then loop (S (S (c_size it))) (c_scan_step it lb) (c_pos it, c_en it)
  else c_slow_next_geq it lb.
(** ef/compact_ef.hpp:86-93: the constructor; the members not initialised are 0. *)
Definition ce_iterator (ws : list N) (tail : N) (offset : nat) (u : N) (n : nat) : res ceit :=
  do o <- ofs_new offset u n;
  c_access {| c_ws := ws; c_tail := tail; c_of := o; c_pos := 0; c_val := 0; c_en := {| u_pos := 0; u_buf := 0 |} |} 0.
(** ef/compact_ef.hpp:190-205 prev_value. *)
Definition c_prev_value (it : ceit) : res N :=
  let o := c_of it in
  if c_pos it =? 0 then Ok 0%N
  else
    do prev_high <- predecessor1 (c_ws it) (c_fuel it) (if c_pos it <? c_size it then u_pos (c_en it) - 1 else o_low o - 1);
    let prev_pos := c_pos it - 1 in
    do low <- c_read_low it prev_pos;
    c_value it prev_high prev_pos low.

(** A posting list iterator as used by the indexes (inverted_index.hpp:98-105: ListType::iterator). *)
Definition ce_ops : iter_ops ceit := {|
  i_deref := fun it => N.to_nat (c_val it);
  i_has_next := fun it => c_pos it <? c_size it;
  i_next := c_next;
  i_next_geq := fun it lb => c_next_geq it (N.of_nat lb);
  i_access0 := fun it => c_access it 0;
  i_size := c_size
|}.
