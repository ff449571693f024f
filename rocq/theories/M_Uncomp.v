(** Model of include/uncompressed_list.hpp and of inverted_index<uncompressed_list<UintType>> (is_byte_aligned = true).
    No proofs. *)
From Verif Require Import Base M_Iter M_Trie M_Word M_Bits M_Codes M_EfSeq M_InvIndex.
Local Open Scope nat_scope.

Section Uint.
  (** sizeof(UintType) (uncompressed_list.hpp:8-11). *)
  Variable width : nat.
  (** Whether a read through a pointer that is not aligned for UintType is undefined (the language, [true]) or an ordinary
      read (x86-64, [false]) (uncompressed_list.hpp:33-35). *)
  Variable strict : bool.

  (** uncompressed_list.hpp:10 BITS. *)
  Definition BITS : nat := 8 * width.
  (** Conversion of a 64-bit integer to UintType (uncompressed_list.hpp:30, 88, 94, 133; the parameter in 62). *)
  Definition trunc (x : N) : N := (x mod 2 ^ N.of_nat BITS)%N.

  (** ** Reading memory *)
  (** The byte at offset [o] of the words of a bit vector, the lowest byte of a word first (uncompressed_list.hpp:33-34). *)
  Definition byte_at (ws : list N) (o : nat) : res N :=
    do w <- get ws (o / 8);
    do s <- shr w (8 * (o mod 8));
    Ok (N.land s 255).
  (** A little-endian integer of [n] bytes at byte offset [o] (uncompressed_list.hpp:33-35, 47). *)
  Fixpoint load_le (ws : list N) (n o : nat) : res N :=
    match n with
    | 0 => Ok 0%N
    | S n' => do x <- byte_at ws o; do h <- load_le ws n' (o + 1); Ok (x + 256 * h)%N
    end.

  (** ** The iterator *)
  (** The vector of words and the byte offset behind m_data; m_universe, m_size, m_id, m_position (uncompressed_list.hpp:116-120). *)
  Record uit := { n_words : list N; n_off : nat; n_univ : N; n_size : nat; n_id : N; n_pos : nat }.
  (** Assignment to m_position (uncompressed_list.hpp:43, 53, 71, 93, 127, 132). *)
  Definition set_pos (it : uit) (p : nat) : uit :=
    {| n_words := n_words it; n_off := n_off it; n_univ := n_univ it; n_size := n_size it; n_id := n_id it; n_pos := p |}.
  (** Assignment to m_id (uncompressed_list.hpp:47, 54, 77, 83, 88, 94, 128, 133). *)
  Definition set_id (it : uit) (v : N) : uit :=
    {| n_words := n_words it; n_off := n_off it; n_univ := n_univ it; n_size := n_size it; n_id := v; n_pos := n_pos it |}.
  (** m_data[i] (uncompressed_list.hpp:47, 54, 72, 76, 94, 100, 125). *)
  Definition n_data (it : uit) (i : nat) : res N :=
    let o := n_off it + i * width in
    if strict && negb (o mod width =? 0) then UB else load_le (n_words it) width o.

  (** uncompressed_list.hpp:26-36: the constructor; the assertion is off. *)
  Definition n_iterator (v : bv) (offset : nat) (u : N) (n : nat) : uit :=
    {| n_words := v_words v; n_off := offset / 8; n_univ := u; n_size := n; n_id := (2 ^ N.of_nat BITS - 1)%N; n_pos := 0 |}.
  (** uncompressed_list.hpp:38-40 has_next. *)
  Definition n_has_next (it : uit) : bool := n_pos it <? n_size it.
  (** uncompressed_list.hpp:42-44 operator++. *)
  Definition n_incr (it : uit) : uit := set_pos it (n_pos it + 1).
  (** uncompressed_list.hpp:46-49 operator*: the value is m_id afterwards. *)
  Definition n_deref (it : uit) : res uit := do v <- n_data it (n_pos it); Ok (set_id it v).
  (** uncompressed_list.hpp:51-56 access. *)
  Definition n_access (it : uit) (i : nat) : res uit :=
    let it := set_pos it i in do v <- n_data it (n_pos it); Ok (set_id it v).
  (** uncompressed_list.hpp:92-96 next. *)
  Definition n_next (it : uit) : res uit :=
    let it := set_pos it (n_pos it + 1) in
    if negb (n_pos it =? n_size it) then do v <- n_data it (n_pos it); Ok (set_id it v)
    else Ok (set_id it (trunc (n_univ it))).

  (** uncompressed_list.hpp:122-135: the loop of next_geq_by_scan; [cnt] = hi + 1 - i. *)
  Fixpoint n_scan (cnt i hi : nat) (lb : N) (it : uit) : res uit :=
    match cnt with
    | 0 => Ok (set_id (set_pos it (hi + 1)) (trunc (n_univ it)))
    | S cnt' =>
        do v <- n_data it i;
        if (lb <=? v)%N then Ok (set_id (set_pos it i) v) else n_scan cnt' (i + 1) hi lb it
    end.
  (** size() - 1; for an empty list it wraps to 2^64 - 1 and the searches run out of bounds: undefined (uncompressed_list.hpp:59, 64). *)
  Definition n_last (it : uit) : res nat := if n_size it =? 0 then UB else Ok (n_size it - 1).
  (** uncompressed_list.hpp:58-60 next_geq_by_scan. *)
  Definition n_geq_by_scan (it : uit) (lb : N) : res uit :=
    do hi <- n_last it;
    n_scan (hi + 1 - n_pos it) (n_pos it) hi (trunc lb) it.
  (** uncompressed_list.hpp:66-86: one iteration of next_geq; linear_scan_threshold is 8 (util.hpp:33). *)
  Definition n_geq_step (lb : N) (s : nat * nat * uit) : res ((nat * nat * uit) + uit) :=
    let '(lo, hi, it) := s in
    if lo <=? hi then
      if hi - lo <=? 8 then do it <- n_scan (hi + 1 - lo) lo hi lb it; Ok (inr it)
      else
        let it := set_pos it ((lo + hi) / 2) in
        do v <- n_data it (n_pos it);
        if (lb <? v)%N then
          let hi := if negb (n_pos it =? 0) then n_pos it - 1 else 0 in
          do w <- n_data it hi;
          if (w <? lb)%N then Ok (inr (set_id it v)) else Ok (inl (lo, hi, it))
        else if (v <? lb)%N then Ok (inl (n_pos it + 1, hi, it))
        else Ok (inr (set_id it v))
    else Ok (inr (set_id it (trunc (n_univ it)))).
  (** uncompressed_list.hpp:62-90 next_geq. Every iteration shrinks the interval: the size is enough fuel. *)
  Definition n_next_geq (it : uit) (lb : N) : res uit :=
    do hi <- n_last it;
    loop (S (S (n_size it))) (n_geq_step (trunc lb)) (n_pos it, hi, it).

  (** uncompressed_list.hpp:98-105 intersects; range::contains (util_types.hpp:56-59). *)
  Fixpoint n_intersects_from (it : uit) (cnt i : nat) (lo hi : N) : res bool :=
    match cnt with
    | 0 => Ok false
    | S cnt' =>
        do v <- n_data it i;
        if (hi <? v)%N then Ok false
        else if (lo <=? v)%N && (v <=? hi)%N then Ok true
        else n_intersects_from it cnt' (i + 1) lo hi
    end.
  (** As above: uncompressed_list.hpp:98-105. *)
  Definition n_intersects (it : uit) (lo hi : N) : res bool := n_intersects_from it (n_size it) 0 lo hi.

  (** Reading a list: for (; it.has_next(); ++it) *it (uncompressed_list.hpp:38-49: a loop over an iterator). *)
  Fixpoint n_collect (fuel : nat) (it : uit) : res (list N) :=
    match fuel with
    | 0 => Fuel
    | S fuel' =>
        if n_has_next it then do it <- n_deref it; do vs <- n_collect fuel' (n_incr it); Ok (n_id it :: vs)
        else Ok []
    end.

  (** ** The inverted index over such lists *)
  (** inverted_index.hpp:51-53 and uncompressed_list.hpp:14-21 for one list. *)
  Definition write_ulist (b : bvb) (l : list N) : res bvb :=
    do b <- write_gamma_nonzero b (N.of_nat (length l));
    do b <- push_pad b 8;
    append_all b l BITS.
  (** inverted_index.hpp:17-66 and 80-86. *)
  Definition uinv_build (u : N) (lists : list (list N)) : res inv :=
    do r <- build_records write_ulist lists; Ok {| ii_docs := u; ii_lists := r |}.
  (** inverted_index.hpp:98-105 iterator. *)
  Definition uinv_iterator (ii : inv) (t : nat) : res uit :=
    let v := r_data (ii_lists ii) in
    do offset <- record_at (ii_lists ii) t;
    do (n, it) <- read_gamma_nonzero (v_words v) (66 + 64 * length (v_words v)) (bi_new offset);
    do it <- eat_pad (v_words v) it 8;
    Ok (n_iterator v (bi_pos it) (ii_docs ii) (N.to_nat n)).

  (** The operations the intersection uses (inverted_index.hpp:143-186): next(), next_geq() and access() return m_id. *)
  Definition n_ops : iter_ops uit := {|
    i_deref := fun it => N.to_nat (n_id it);
    i_has_next := n_has_next;
    i_next := n_next;
    i_next_geq := fun it lb => n_next_geq it (N.of_nat lb);
    i_access0 := fun it => n_access it 0;
    i_size := n_size |}.
  (** An iterator whose value has been read. The constructor of the intersection does not read it (inverted_index.hpp:140);
      m_id is not used before it is set, so this changes nothing but m_id. *)
  Definition uinv_open (ii : inv) (t : nat) : res uit := do it <- uinv_iterator ii t; n_deref it.
End Uint.
