(** Model of include/succinct_rmq/bp_vector.hpp and bp_vector_support.hpp: the part used by range-minimum queries (find_open,
    find_close and search_min_tree are in M_Paren). No proofs. *)
From Coq Require Import ZArith.
From Verif Require Import Base M_Word M_Bits M_Darray M_Rs.
Local Open Scope nat_scope.

(** excess_t is int32_t (bp_vector.hpp:53): overflow of its arithmetic is undefined, conversions to it wrap around. *)
Definition i32 (z : Z) : res Z := if ((-2147483648 <=? z) && (z <=? 2147483647))%Z then Ok z else UB.
(** As above: bp_vector.hpp:53. *)
Definition to_i32 (z : Z) : Z := ((z + 2147483648) mod 4294967296 - 2147483648)%Z.
(** block_min_excess_t is int16_t (bp_vector.hpp:69-70). *)
Definition to_i16 (z : Z) : Z := ((z + 32768) mod 65536 - 32768)%Z.

(** bp_vector_support.hpp:13-39: excess_tables. (m_fwd_exc, m_fwd_min (negated), m_fwd_min_idx) of a byte. *)
Definition fwd_step (c : N) (st : Z * Z * nat) (i : nat) : Z * Z * nat :=
  let '(e, mn, idx) := st in
  let e := (if tb c i then e + 1 else e - 1)%Z in
  if (mn <? - e)%Z then (e, (- e)%Z, i + 1) else (e, mn, idx).
(** As above: bp_vector_support.hpp:13-39. *)
Definition fwd (c : N) : Z * Z * nat := fold_left (fwd_step c) (seq 0 8) (0%Z, 0%Z, 0).
(** As above: bp_vector_support.hpp:13-39. *)
Definition fwd_exc (c : N) : Z := fst (fst (fwd c)).
(** As above: bp_vector_support.hpp:13-39. *)
Definition fwd_min (c : N) : Z := snd (fst (fwd c)).
(** As above: bp_vector_support.hpp:13-39. *)
Definition fwd_min_idx (c : N) : nat := snd (fwd c).

(** The byte at a shift: (word >> shift) & 0xFF (bp_vector_support.hpp:141-142). *)
Definition byte_at (w : N) (shift : nat) : res N := do y <- shr w shift; Ok (N.land y 255).
(** bp_vector_support.hpp:140-150: the bytes from number i on, n of them. State: exc, min_byte_exc, min_byte_idx. *)
Fixpoint rmq_bytes (w : N) (n i : nat) (exc mb : Z) (bi : nat) : res (Z * Z * nat) :=
  match n with
  | 0 => Ok (exc, mb, bi)
  | S n' =>
      do c <- byte_at w (i * 8);
      do cur <- i32 (exc - fwd_min c);
      let bi := if (cur <? mb)%Z then i else bi in
      let mb := if (cur <? mb)%Z then cur else mb in
      do exc <- i32 (exc + fwd_exc c);
      rmq_bytes w n' (i + 1) exc mb bi
  end.
(** bp_vector_support.hpp:133-158 excess_rmq_in_word: exc, min_exc, min_exc_idx are passed by reference. *)
Definition rmq_word (w : N) (exc : Z) (start : nat) (mn : Z) (idx : nat) : res (Z * Z * nat) :=
  do (exc, mb, bi) <- rmq_bytes w 8 0 exc mn 0;
  if (mb <? mn)%Z then
    do c <- byte_at w (bi * 8);
    Ok (exc, mb, start + bi * 8 + fwd_min_idx c)
  else Ok (exc, mn, idx).

(** m_internal_nodes, m_block_excess_min, m_superblock_excess_min (bp_vector.hpp:100-102). *)
Record bpv := { bp_rs : rsv; bp_internal : nat; bp_block_min : list Z; bp_tree : list Z }.

(** bp_vector_support.hpp:327-334 get_block_excess; a block is 4 words. *)
Definition block_excess (r : rsv) (block : nat) : res Z :=
  do x <- sub_block_rank r (block * 4);
  Ok (to_i32 (2 * Z.of_N x - Z.of_nat (block * 4 * 64))).
(** bp_vector_support.hpp:390-392 excess. *)
Definition excess (r : rsv) (pos : nat) : res Z :=
  do x <- rs_rank r pos;
  Ok (to_i32 (2 * Z.of_nat x - Z.of_nat pos)).

(** bp_vector_support.hpp:394-405 excess_rmq_in_block: words start, ..., start + n - 1. *)
Fixpoint rmq_words (ws : list N) (n start : nat) (exc mn : Z) (idx : nat) : res (Z * Z * nat) :=
  match n with
  | 0 => Ok (exc, mn, idx)
  | S n' =>
      do w <- get ws start;
      do (exc, mn, idx) <- rmq_word w exc (start * 64) mn idx;
      rmq_words ws n' (start + 1) exc mn idx
  end.
(** bp_vector_support.hpp:419-424; [idx]: None = -1U. *)
Fixpoint rmq_blocks (mins : list Z) (sexc : Z) (n block : nat) (mn : Z) (idx : option nat) : res (Z * option nat) :=
  match n with
  | 0 => Ok (mn, idx)
  | S n' =>
      do m <- get mins block;
      do v <- i32 (sexc + m);
      if (v <? mn)%Z then rmq_blocks mins sexc n' (block + 1) v (Some block) else rmq_blocks mins sexc n' (block + 1) mn idx
  end.
(** bp_vector_support.hpp:407-425 excess_rmq_in_superblock; a superblock is 32 blocks. *)
Definition rmq_superblock (p : bpv) (start stop : nat) (mn : Z) (idx : option nat) : res (Z * option nat) :=
  if start =? stop then Ok (mn, idx)
  else
    do sexc <- block_excess (bp_rs p) (start / 32 * 32);
    rmq_blocks (bp_block_min p) sexc (stop - start) start mn idx.

(** bp_vector_support.hpp:448-473: going up. State: cur_node, h, rightmost_span, node_min_exc, node_min_idx. The shift 1 << h is a power here
    (simplification: no more than 2^64 nodes, so h < 64). *)
Definition up_step (tree : list Z) (stop : nat) (st : nat * nat * nat * Z * nat) : res ((nat * nat * nat * Z * nat) + (nat * nat * nat * Z * nat)) :=
  let '(cur, h, span, mn, mi) := st in
  if Nat.even cur then
    let span := span + 2 ^ h in
    do (mn, mi) <- (if span <? stop then do t <- get tree (cur + 1); Ok (if (t <? mn)%Z then (t, cur + 1) else (mn, mi)) else Ok (mn, mi));
    if stop - 1 <=? span then Ok (inr (cur + 1, h, span, mn, mi)) else Ok (inl (cur / 2, h + 1, span, mn, mi))
  else Ok (inl (cur / 2, h + 1, span, mn, mi)).
(** bp_vector_support.hpp:477-498: going down. *)
Definition down_step (tree : list Z) (stop : nat) (st : nat * nat * nat * Z * nat) : res ((nat * nat * nat * Z * nat) + (nat * nat * Z * nat)) :=
  let '(cur, h, span, mn, mi) := st in
  if stop - 1 <? span then
    let h := h - 1 in
    let child := cur * 2 in
    if stop - 1 <=? span - 2 ^ h then Ok (inl (child, h, span - 2 ^ h, mn, mi))
    else
      do t <- get tree child;
      Ok (inl (child + 1, h, span, (if (t <? mn)%Z then t else mn), (if (t <? mn)%Z then child else mi)))
  else Ok (inr (cur, span, mn, mi)).
(** bp_vector_support.hpp:513-520: down to the leaf. *)
Definition leaf_step (tree : list Z) (internal cur : nat) : res (nat + nat) :=
  if cur <? internal then
    do t1 <- get tree (cur * 2 + 1);
    do t0 <- get tree (cur * 2);
    Ok (inl (if (t1 <? t0)%Z then cur * 2 + 1 else cur * 2))
  else Ok (inr cur).
(** bp_vector_support.hpp:427-529 find_min_superblock: superblock_min_exc, superblock_min_idx. *)
Definition find_min_superblock (p : bpv) (start stop : nat) (smin : Z) (sidx : option nat) : res (Z * option nat) :=
  if start =? stop then Ok (smin, sidx)
  else
    let cur := bp_internal p + start in
    do mn <- get (bp_tree p) cur;
    if stop - start =? 1 then Ok (mn, Some start)
    else
      do (cur, h, span, mn, mi) <- loop (cur + 1) (up_step (bp_tree p) stop) (cur, 0, start, mn, cur);
      do (cur, span, mn, mi) <- loop (h + 1) (down_step (bp_tree p) stop) (cur, h, span, mn, mi);
      do (mn, mi) <- (if span <? stop then do t <- get (bp_tree p) cur; Ok (if (t <? mn)%Z then (t, cur) else (mn, mi)) else Ok (mn, mi));
      if (mn <? smin)%Z then
        do cur <- loop (bp_internal p + 1) (leaf_step (bp_tree p) (bp_internal p)) mi;
        Ok (mn, Some (cur - bp_internal p))
      else Ok (smin, sidx).

(** bp_vector_support.hpp:553-555, 630-632: the bits from position len on set to one. *)
Definition pad_ones (w : N) (len : nat) : res N := do m <- shl ALL len; Ok (N.lor w m).
(** bp_vector_support.hpp:531-641 excess_rmq: the position and min_exc. *)
Definition excess_rmq (p : bpv) (a b : nat) : res (nat * Z) :=
  let ws := v_words (rs_bv (bp_rs p)) in
  do exc <- excess (bp_rs p) a;
  let mn := exc in
  let idx := a in
  if a =? b then Ok (idx, mn)
  else
    let len := b - a in
    let wa := a / 64 in
    let wb := (b - 1) / 64 in
    do w <- get ws wa;
    do w <- shr w (a mod 64);
    let sub := Nat.min (64 - a mod 64) len in
    do w <- (if sub =? 64 then Ok w else pad_ones w sub);
    do (exc, mn, idx) <- rmq_word w exc a mn idx;
    if wa =? wb then Ok (idx, mn)
    else
      let ba := wa / 4 in
      let bb := wb / 4 in
      do exc <- i32 (exc - (64 - Z.of_nat sub));
      do (exc, mn, idx) <-
        (if ba =? bb then rmq_words ws (wb - (wa + 1)) (wa + 1) exc mn idx
         else
           do (exc, mn, idx) <- rmq_words ws ((ba + 1) * 4 - (wa + 1)) (wa + 1) exc mn idx;
           let sa := (ba + 1) / 32 in
           let sb := bb / 32 in
           do (bmin, bidx) <-
             (if sa =? sb then rmq_superblock p (ba + 1) bb mn None
              else
                do (bmin, bidx) <- rmq_superblock p (ba + 1) ((sa + 1) * 32) mn None;
                do (smin, sidx) <- find_min_superblock p (sa + 1) sb mn None;
                do (bmin, bidx) <-
                  (if (smin <? mn)%Z then
                     match sidx with
                     | None => UB
                     | Some s => rmq_superblock p (s * 32) ((s + 1) * 32) bmin bidx
                     end
                   else Ok (bmin, bidx));
                rmq_superblock p (sb * 32) bb bmin bidx);
           do (mn, idx) <-
             (if (bmin <? mn)%Z then
                match bidx with
                | None => UB
                | Some k =>
                    do exc <- block_excess (bp_rs p) k;
                    do (_, mn, idx) <- rmq_words ws 4 (k * 4) exc mn idx;
                    Ok (mn, idx)
                end
              else Ok (mn, idx));
           do exc <- block_excess (bp_rs p) bb;
           rmq_words ws (wb - bb * 4) (bb * 4) exc mn idx);
      do w <- get ws wb;
      do w <- (if b mod 64 =? 0 then Ok w else pad_ones w (b mod 64));
      do (_, mn, idx) <- rmq_word w exc (wb * 64) mn idx;
      Ok (idx, mn).

(** bp_vector_support.hpp:646-676: cur_superblock_excess and cur_block_min over the bits of a word. Both stay between -8192 and 8192. *)
Fixpoint min_bits (w : N) (n i : nat) (sexc cmin : Z) : Z * Z :=
  match n with
  | 0 => (sexc, cmin)
  | S n' =>
      let sexc := (sexc + (if tb w i then 1 else -1))%Z in
      min_bits w n' (i + 1) sexc (Z.min cmin sexc)
  end.
(** As above: bp_vector_support.hpp:646-676. *)
Fixpoint min_words (size total i : nat) (ws : list N) (sexc cmin : Z) (mins : list Z) : list Z :=
  match ws with
  | [] => mins ++ [to_i16 cmin]
  | w :: ws' =>
      let sexc := if i mod 128 =? 0 then 0%Z else sexc in
      let mins := if (i mod 4 =? 0) && negb (i =? 0) then mins ++ [to_i16 cmin] else mins in
      let cmin := if (i mod 4 =? 0) && negb (i =? 0) then sexc else cmin in
      let bits := if (i =? total - 1) && negb (size mod 64 =? 0) then size mod 64 else 64 in
      let (sexc, cmin) := min_bits w bits 0 sexc cmin in
      min_words size total (i + 1) ws' sexc cmin mins
  end.
(** bp_vector_support.hpp:685-688: the smallest power of two not below. *)
Definition leaves_step (n c : nat) : res (nat + nat) := if c <? n then Ok (inl (2 * c)) else Ok (inr c).
(** bp_vector_support.hpp:695-709: the minimum of a superblock. *)
Fixpoint super_min (mins : list Z) (sexc : Z) (n block : nat) (acc : Z) : res Z :=
  match n with
  | 0 => Ok acc
  | S n' =>
      do m <- get mins block;
      do v <- i32 (sexc + m);
      super_min mins sexc n' (block + 1) (Z.min acc v)
  end.
(** As above: bp_vector_support.hpp:695-709. *)
Fixpoint super_mins (r : rsv) (mins : list Z) (blocks n s : nat) : res (list Z) :=
  match n with
  | 0 => Ok []
  | S n' =>
      do sexc <- block_excess r (s * 32);
      do v <- super_min mins sexc (Nat.min ((s + 1) * 32) blocks - s * 32) (s * 32) (to_i32 (Z.of_nat (v_size (rs_bv r))));
      do vs <- super_mins r mins blocks n' (s + 1);
      Ok (v :: vs)
  end.
(** bp_vector_support.hpp:717-723: nodes n + 1, n, ..., 2. *)
Fixpoint fill_up (n : nat) (tree : list Z) : res (list Z) :=
  match n with
  | 0 => Ok tree
  | S n' =>
      let node := n + 1 in
      do x <- get tree (node / 2);
      do y <- get tree node;
      do tree <- set tree (node / 2) (Z.min x y);
      fill_up n' tree
  end.
(** bp_vector_support.hpp:643-727 build_min_tree. The vector superblock_excess_min is written in the order: leaves, inner nodes; here it is
    built by concatenation. For an empty vector m_internal_nodes stays uninitialised; here 0. *)
Definition bp_build (v : bv) (hints hints0 : bool) : res bpv :=
  do r <- rs_build v hints hints0;
  if v_size v =? 0 then Ok {| bp_rs := r; bp_internal := 0; bp_block_min := []; bp_tree := [] |}
  else
    let n := length (v_words v) in
    let mins := min_words (v_size v) n 0 (v_words v) 0 0 [] in
    let blocks := ceil_div n 4 in
    let supers := (blocks + 32 - 1) / 32 in
    do internal <- loop (supers + 1) (leaves_step supers) 1;
    do vs <- super_mins r mins blocks supers 0;
    do tree <- fill_up (internal + supers - 2) (repeat (to_i32 (Z.of_nat (v_size v))) internal ++ vs);
    Ok {| bp_rs := r; bp_internal := internal; bp_block_min := mins; bp_tree := tree |}.
