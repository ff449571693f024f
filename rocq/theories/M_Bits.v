(** Model of include/bit_vector.hpp. Bits are stored in 64-bit words, the lowest bit first; positions are natural numbers
    (simplification: they do not wrap at 2^64). No proofs. *)
From Verif Require Import Base M_Word S_Bits.
Local Open Scope nat_scope.

(** 64-bit all ones: uint64_t(-1) (bit_vector.hpp:76, 121). *)
Definition ALL : N := 18446744073709551615.

(** ** bit_vector_builder, bit_vector.hpp:73-230 *)
(** m_bits, m_size, m_cur_word (the index of the word pointed to; None = indeterminate) (bit_vector.hpp:226-229). *)
Record bvb := { b_words : list N; b_size : nat; b_cur : option nat }.

(** Dereferencing m_cur_word (bit_vector.hpp:96, 144). *)
Definition cur_word (b : bvb) : res (nat * N) :=
  match b_cur b with
  | None => UB
  | Some i => do w <- get (b_words b) i; Ok (i, w)
  end.
(** bit_vector.hpp:78, 94, 105, 149: &m_bits.back(). *)
Definition back_ptr (ws : list N) : option nat := match ws with [] => None | _ => Some (length ws - 1) end.

(** bit_vector.hpp:74-84: the constructor. *)
Definition bvb_new (size : nat) (init : bool) : res bvb :=
  let ws := repeat (if init then ALL else 0%N) (words_for size) in
  if size =? 0 then Ok {| b_words := ws; b_size := 0; b_cur := None |}
  else
    do w <- get ws (length ws - 1);
    do w <- (if init && negb (size mod 64 =? 0) then shr w (64 - size mod 64) else Ok w);
    do ws <- set ws (length ws - 1) w;
    Ok {| b_words := ws; b_size := size; b_cur := back_ptr ws |}.
(** As above: bit_vector.hpp:74-84. *)
Definition bvb_empty : bvb := {| b_words := []; b_size := 0; b_cur := None |}.

(** bit_vector.hpp:90-98 push_back. *)
Definition bvb_push (b : bvb) (v : bool) : res bvb :=
  let pos := b_size b mod 64 in
  let b := if pos =? 0 then {| b_words := b_words b ++ [0%N]; b_size := b_size b; b_cur := Some (length (b_words b)) |} else b in
  do (i, w) <- cur_word b;
  do s <- shl (if v then 1%N else 0%N) pos;
  do ws <- set (b_words b) i (N.lor w s);
  Ok {| b_words := ws; b_size := b_size b + 1; b_cur := b_cur b |}.

(** bit_vector.hpp:100-107 zero_extend. *)
Definition bvb_zero_extend (b : bvb) (n : nat) : bvb :=
  let size := b_size b + n in
  let needed := words_for size - length (b_words b) in
  let ws := b_words b ++ repeat 0%N needed in
  {| b_words := ws; b_size := size; b_cur := if needed =? 0 then b_cur b else back_ptr ws |}.

(** bit_vector.hpp:109-114 set. *)
Definition bvb_set (b : bvb) (pos : nat) (v : bool) : res bvb :=
  let word := pos / 64 in
  let pos_in_word := pos mod 64 in
  do w <- get (b_words b) word;
  do one <- shl 1 pos_in_word;
  let w := N.land w (wnot one) in
  do s <- shl (if v then 1%N else 0%N) pos_in_word;
  do ws <- set (b_words b) word (N.lor w s);
  Ok {| b_words := ws; b_size := b_size b; b_cur := b_cur b |}.

(** bit_vector.hpp:116-133 set_bits on the words; the assertions are off in release builds. *)
Definition set_bits_words (ws : list N) (pos : nat) (bits : N) (len : nat) : res (list N) :=
  if len =? 0 then Ok ws
  else
    do mask <- (if len =? 64 then Ok ALL else do m <- shl 1 len; Ok (wsub m 1));
    let word := pos / 64 in
    let pos_in_word := pos mod 64 in
    do w <- get ws word;
    do m <- shl mask pos_in_word;
    do s <- shl bits pos_in_word;
    do ws <- set ws word (N.lor (N.land w (wnot m)) s);
    let stored := 64 - pos_in_word in
    if stored <? len then
      do w <- get ws (word + 1);
      do m <- shr mask stored;
      do s <- shr bits stored;
      set ws (word + 1) (N.lor (N.land w (wnot m)) s)
    else Ok ws.
(** As above: bit_vector.hpp:116-133. *)
Definition bvb_set_bits (b : bvb) (pos : nat) (bits : N) (len : nat) : res bvb :=
  do ws <- set_bits_words (b_words b) pos bits len;
  Ok {| b_words := ws; b_size := b_size b; b_cur := b_cur b |}.

(** bit_vector.hpp:135-150 append_bits. *)
Definition bvb_append_bits (b : bvb) (bits : N) (len : nat) : res bvb :=
  if len =? 0 then Ok b
  else
    let pos_in_word := b_size b mod 64 in
    do ws <- (if pos_in_word =? 0 then Ok (b_words b ++ [bits])
              else
                do (i, w) <- cur_word b;
                do s <- shl bits pos_in_word;
                do ws <- set (b_words b) i (N.lor w s);
                if 64 - pos_in_word <? len then
                  do h <- shr bits (64 - pos_in_word);
                  Ok (ws ++ [h])
                else Ok ws);
    Ok {| b_words := ws; b_size := b_size b + len; b_cur := back_ptr ws |}.

(** std::vector::resize with zeros (bit_vector.hpp:169, 209). *)
Definition resize_words (ws : list N) (n : nat) : list N := firstn n ws ++ repeat 0%N (n - length ws).

(** bit_vector.hpp:175-180: [cur]: index of cur_word. *)
Fixpoint append_words (ws : list N) (cur shift : nat) (rhs : list N) : res (list N * nat) :=
  match rhs with
  | [] => Ok (ws, cur)
  | r :: rhs' =>
      do w <- get ws cur;
      do s <- shl r shift;
      do ws <- set ws cur (N.lor w s);
      do h <- shr r (64 - shift);
      do ws <- set ws (cur + 1) h;
      append_words ws (cur + 1) shift rhs'
  end.
(** bit_vector.hpp:163-187 append. *)
Definition bvb_append (b rhs : bvb) : res bvb :=
  if b_size rhs =? 0 then Ok b
  else
    let pos := length (b_words b) in
    let shift := b_size b mod 64 in
    let size := b_size b + b_size rhs in
    let ws := resize_words (b_words b) (words_for size) in
    do ws <- (if shift =? 0 then blit ws pos (b_words rhs)
              else
                let n := length (b_words rhs) in
                do (ws, cur) <- append_words ws (pos - 1) shift (firstn (n - 1) (b_words rhs));
                do last <- get (b_words rhs) (n - 1);
                do w <- get ws cur;
                do s <- shl last shift;
                do ws <- set ws cur (N.lor w s);
                if cur <? length ws - 1 then
                  do h <- shr last (64 - shift);
                  set ws (cur + 1) h
                else Ok ws);
    Ok {| b_words := ws; b_size := size; b_cur := back_ptr ws |}.

(** bit_vector.hpp:192-202: one pass of reverse. *)
Fixpoint reverse_words (ws : list N) (shift : nat) (remainder : N) : res (list N) :=
  match ws with
  | [] => Ok []
  | w :: ws' =>
      do (cur, remainder) <-
         (if negb (shift =? 64) then
            do s <- shl w shift;
            do r <- shr w (64 - shift);
            Ok (N.lor remainder s, r)
          else Ok (w, remainder));
      do rest <- reverse_words ws' shift remainder;
      Ok (reverse_bits cur :: rest)
  end.
(** bit_vector.hpp:189-205 reverse. *)
Definition bvb_reverse (b : bvb) : res bvb :=
  do ws <- reverse_words (b_words b) (64 - b_size b mod 64) 0;
  Ok {| b_words := rev ws; b_size := b_size b; b_cur := b_cur b |}.

(** bit_vector.hpp:207-210 resize: m_cur_word may dangle afterwards. *)
Definition bvb_resize (b : bvb) (size : nat) : bvb :=
  {| b_words := resize_words (b_words b) (words_for size); b_size := size; b_cur := None |}.

(** ** bit_vector, bit_vector.hpp:232-399 *)
Record bv := { v_words : list N; v_size : nat }.
(** bit_vector.hpp:236-239 build. *)
Definition bv_build (b : bvb) : bv := {| v_words := b_words b; v_size := b_size b |}.

(** bit_vector.hpp:259-264 operator[]. *)
Definition bv_get (v : bv) (i : nat) : res bool :=
  do w <- get (v_words v) (i / 64);
  do s <- shr w (i mod 64);
  Ok (negb (N.land s 1 =? 0)%N).

(** The mask of get_bits, bits_getter and compact_vector: -(len == 64) | ((1 << len) - 1); the shift is evaluated
    for len = 64, too (bit_vector.hpp:273, 408; compact_vector.hpp:84). *)
Definition mask_of (len : nat) : res N := do m <- shl 1 len; Ok (N.lor (if len =? 64 then ALL else 0%N) (wsub m 1)).

(** bit_vector.hpp:271-279: [len] bits at [pos], common to get_bits, bits_getter::access (410-418) and compact_vector::operator[]. *)
Definition read_bits (ws : list N) (pos len : nat) (mask : N) : res N :=
  let block := pos / 64 in
  let shift := pos mod 64 in
  do w <- get ws block;
  do s <- shr w shift;
  if shift + len <=? 64 then Ok (N.land s mask)
  else
    do w' <- get ws (block + 1);
    do s' <- shl w' (64 - shift);
    Ok (N.lor s (N.land s' mask)).
(** bit_vector.hpp:266-280 get_bits. *)
Definition bv_get_bits (v : bv) (pos len : nat) : res N :=
  if len =? 0 then Ok 0%N
  else do mask <- mask_of len; read_bits (v_words v) pos len mask.

(** bit_vector.hpp:401-428 bits_getter: base, width, mask; access(i). *)
Definition getter_access (ws : list N) (base width : nat) (i : nat) : res N :=
  do mask <- mask_of width; read_bits ws (base + i * width) width mask.

(** An unaligned 8-byte load from byte offset [o]; the word after the end of the vector holds [tail] (what is there is not
    known to the program: the load is out of bounds) (bit_vector.hpp:284-286; compact_vector.hpp:252-259). *)
Definition load64 (ws : list N) (tail : N) (o : nat) : res N :=
  let ws := ws ++ [tail] in
  do w <- get ws (o / 8);
  let s := 8 * (o mod 8) in
  do l <- shr w s;
  if s =? 0 then Ok l
  else
    do w' <- get ws (o / 8 + 1);
    do h <- shl w' (64 - s);
    Ok (N.lor l h).
(** The same load, undefined out of bounds (bit_vector.hpp:284-286). *)
Definition load64_strict (ws : list N) (o : nat) : res N := if o + 8 <=? 8 * length ws then load64 ws 0 o else UB.
(** bit_vector.hpp:283-287 get_word56. *)
Definition get_word56 (ws : list N) (tail : N) (pos : nat) : res N :=
  do w <- load64 ws tail (pos / 8); shr w (pos mod 8).

(** bit_vector.hpp:290-299 (and 152-161) get_word64. *)
Definition get_word64 (ws : list N) (pos : nat) : res N :=
  let block := pos / 64 in
  let shift := pos mod 64 in
  do w <- get ws block;
  do w <- shr w shift;
  if negb (shift =? 0) && (block + 1 <? length ws) then
    do w' <- get ws (block + 1);
    do s <- shl w' (64 - shift);
    Ok (N.lor w s)
  else Ok w.

(** bit_vector.hpp:301-314 predecessor1. *)
Definition pred_step (ws : list N) (s : nat * N) : res ((nat * N) + nat) :=
  let '(block, word) := s in
  do o <- msb2 word;
  match o with
  | Some r => Ok (inr (block * 64 + r))
  | None => if block =? 0 then UB else do w <- get ws (block - 1); Ok (inl (block - 1, w))
  end.
(** As above: bit_vector.hpp:301-314. *)
Definition predecessor1 (ws : list N) (fuel pos : nat) : res nat :=
  let block := pos / 64 in
  let shift := 64 - pos mod 64 - 1 in
  do w <- get ws block;
  do w <- shl w shift;
  do w <- shr w shift;
  loop fuel (pred_step ws) (block, w).

(** ** unary_iterator, bit_vector.hpp:320-388 *)
Record uiter := { u_pos : nat; u_buf : N }.
(** bit_vector.hpp:326-332. *)
Definition ui_new (ws : list N) (pos : nat) : res uiter :=
  do w <- get ws (pos / 64);
  do m <- shl ALL (pos mod 64);
  Ok {| u_pos := pos; u_buf := N.land w m |}.
(** m_position & ~63 (bit_vector.hpp:347). *)
Definition word_start (pos : nat) : nat := 64 * (pos / 64).
(** bit_vector.hpp:338-349 next. *)
Definition ui_next_step (ws : list N) (s : nat * N) : res ((nat * N) + (nat * uiter)) :=
  let '(pos, buf) := s in
  do o <- lsb2 buf;
  match o with
  | None => do w <- get ws ((pos + 64) / 64); Ok (inl (pos + 64, w))
  | Some i =>
      let p := word_start pos + i in
      Ok (inr (p, {| u_pos := p; u_buf := N.land buf (wsub buf 1) |}))
  end.
(** As above: bit_vector.hpp:338-349. *)
Definition ui_next (ws : list N) (fuel : nat) (u : uiter) : res (nat * uiter) :=
  loop fuel (ui_next_step ws) (u_pos u, u_buf u).
(** bit_vector.hpp:352-365 skip: skipped, position, buf. *)
Definition ui_skip_step (ws : list N) (k : nat) (s : nat * nat * N) : res ((nat * nat * N) + uiter) :=
  let '(skipped, pos, buf) := s in
  let w := popcount buf in
  if skipped + w <=? k then do b <- get ws ((pos + 64) / 64); Ok (inl (skipped + w, pos + 64, b))
  else
    do i <- select_in_word buf (k - skipped);
    do m <- shl ALL i;
    Ok (inr {| u_pos := word_start pos + i; u_buf := N.land buf m |}).
(** As above: bit_vector.hpp:352-365. *)
Definition ui_skip (ws : list N) (fuel : nat) (u : uiter) (k : nat) : res uiter :=
  loop fuel (ui_skip_step ws k) (0, u_pos u, u_buf u).
(** bit_vector.hpp:368-382 skip0. *)
Definition ui_skip0_step (ws : list N) (k : nat) (s : nat * nat * N) : res ((nat * nat * N) + uiter) :=
  let '(skipped, pos, buf) := s in
  let w := popcount buf in
  if skipped + w <=? k then do b <- get ws ((pos + 64) / 64); Ok (inl (skipped + w, pos + 64, wnot b))
  else
    do i <- select_in_word buf (k - skipped);
    do m <- shl ALL i;
    Ok (inr {| u_pos := word_start pos + i; u_buf := N.land (wnot buf) m |}).
(** As above: bit_vector.hpp:368-382. *)
Definition ui_skip0 (ws : list N) (fuel : nat) (u : uiter) (k : nat) : res uiter :=
  do m <- shl ALL (u_pos u mod 64);
  loop fuel (ui_skip0_step ws k) (0, u_pos u, N.land (wnot (u_buf u)) m).

(** ** bits_iterator, bit_vector.hpp:12-71: m_pos, m_buf, m_avail *)
Record biter := { bi_pos : nat; bi_buf : N; bi_avail : N }.
(** As above: bit_vector.hpp:12-71. *)
Definition bi_new (pos : nat) : biter := {| bi_pos := pos; bi_buf := 0; bi_avail := 0 |}.
(** bit_vector.hpp:62-65 fill_buf. *)
Definition bi_fill (ws : list N) (it : biter) : res biter :=
  do w <- get_word64 ws (bi_pos it); Ok {| bi_pos := bi_pos it; bi_buf := w; bi_avail := 64 |}.
(** bit_vector.hpp:24-38 get_bits. *)
Definition bi_get_bits (ws : list N) (it : biter) (len : nat) : res (N * biter) :=
  do it <- (if (bi_avail it <? N.of_nat len)%N then bi_fill ws it else Ok it);
  do (val, buf) <-
     (if negb (len =? 64) then
        do m <- shl 1 len;
        do b <- shr (bi_buf it) len;
        Ok (N.land (bi_buf it) (wsub m 1), b)
      else Ok (bi_buf it, bi_buf it));
  Ok (val, {| bi_pos := bi_pos it + len; bi_buf := buf; bi_avail := wsub (bi_avail it) (N.of_nat len) |}).
(** bit_vector.hpp:40-55 skip_zeros. *)
Definition bi_skip_step (ws : list N) (s : biter * nat) : res ((biter * nat) + (nat * biter)) :=
  let '(it, zs) := s in
  if (bi_buf it =? 0)%N then
    let avail := N.to_nat (bi_avail it) in
    do it' <- bi_fill ws {| bi_pos := bi_pos it + avail; bi_buf := bi_buf it; bi_avail := 0 |};
    Ok (inl (it', zs + avail))
  else
    do l <- lsb (bi_buf it);
    do b <- shr (bi_buf it) l;
    do b <- shr b 1;
    Ok (inr (zs + l, {| bi_pos := bi_pos it + (l + 1); bi_buf := b; bi_avail := wsub (bi_avail it) (N.of_nat (l + 1)) |})).
(** As above: bit_vector.hpp:40-55. *)
Definition bi_skip_zeros (ws : list N) (fuel : nat) (it : biter) : res (nat * biter) :=
  loop fuel (bi_skip_step ws) (it, 0).

(** A sequence of operations on one builder (bit_vector.hpp:90-210: the members of the builder). *)
Definition bvb_op (b : bvb) (o : bop) : res bvb :=
  match o with
  | Push v => bvb_push b v
  | AppendBits x len => bvb_append_bits b x len
  | SetBit pos v => bvb_set b pos v
  | SetBits pos x len => bvb_set_bits b pos x len
  | ZeroExtend n => Ok (bvb_zero_extend b n)
  | Reverse => bvb_reverse b
  end.
(** bit_vector.hpp:90-210: a sequence of calls. *)
Fixpoint bvb_ops (b : bvb) (os : list bop) : res bvb :=
  match os with
  | [] => Ok b
  | o :: os' => do b <- bvb_op b o; bvb_ops b os'
  end.
(** Reading fields one after the other with one reader (bit_vector.hpp:24-38: a sequence of calls). *)
Fixpoint bi_get_all (ws : list N) (it : biter) (lens : list nat) : res (list N * biter) :=
  match lens with
  | [] => Ok ([], it)
  | len :: lens' =>
      do (r, it) <- bi_get_bits ws it len;
      do (rs, it) <- bi_get_all ws it lens';
      Ok (r :: rs, it)
  end.
(** The first n results of next() (bit_vector.hpp:338-349: a sequence of calls). *)
Fixpoint ui_take (ws : list N) (fuel : nat) (u : uiter) (n : nat) : res (list nat) :=
  match n with
  | 0 => Ok []
  | S n' => do (p, u) <- ui_next ws fuel u; do ps <- ui_take ws fuel u n'; Ok (p :: ps)
  end.
