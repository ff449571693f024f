(** Model of find_close, find_open and enclose of include/succinct_rmq/bp_vector.hpp and bp_vector_support.hpp: matching and enclosing
    parentheses. A one is an opening parenthesis, a zero a closing one. No proofs. *)
From Coq Require Import ZArith.
From Verif Require Import Base M_Word M_Bits M_Darray M_Rs M_Bp.
Local Open Scope nat_scope.

(** bp_vector_support.hpp:14-17, 23-32: m_fwd_pos of a byte. State: excess, the row of the table. The index -excess is at most 8. *)
Definition fwd_pos_step (c : N) (st : Z * list nat) (i : nat) : Z * list nat :=
  let '(e, row) := st in
  if tb c i then ((e + 1)%Z, row)
  else
    let e := (e - 1)%Z in
    (e, if (e <? 0)%Z && (nth (Z.to_nat (- e)) row 0 =? 0) then upd row (Z.to_nat (- e)) (i + 1) else row).
(** As above: bp_vector_support.hpp:14-17, 23-32. *)
Definition fwd_pos (c : N) : list nat := snd (fold_left (fwd_pos_step c) (seq 0 8) (0%Z, repeat 0 9)).
(** bp_vector_support.hpp:14-17, 41-57: m_bwd_pos and m_bwd_min of a byte; (c << i) & 128 is bit 7 - i of c. State: excess, m_bwd_min[c], the row of
    m_bwd_pos. *)
Definition bwd_step (c : N) (st : Z * Z * list nat) (i : nat) : Z * Z * list nat :=
  let '(e, mx, row) := st in
  if tb c (7 - i) then
    let e := (e + 1)%Z in
    (e, Z.max e mx, if (0 <? e)%Z && (nth (Z.to_nat e) row 0 =? 0) then upd row (Z.to_nat e) (i + 1) else row)
  else ((e - 1)%Z, Z.max (e - 1) mx, row).
(** As above: bp_vector_support.hpp:14-17, 41-57. *)
Definition bwd (c : N) : Z * Z * list nat := fold_left (bwd_step c) (seq 0 8) (0%Z, 0%Z, repeat 0 9).
(** As above: bp_vector_support.hpp:14-17, 41-57. *)
Definition bwd_min (c : N) : Z := snd (fst (bwd c)).
(** As above: bp_vector_support.hpp:14-17, 41-57. *)
Definition bwd_pos (c : N) : list nat := snd (bwd c).

(** util.hpp:256-260 leq_step_8. *)
Definition leq_step_8 (x y : N) : N :=
  N.shiftr (N.land (N.lxor (wsub (N.lor y msbs_step_8) (N.land x (wnot msbs_step_8))) (N.lxor x y)) msbs_step_8) 7.

(** bp_vector_support.hpp:81-86, 111-117: the bytes f(i), ..., f(i + n - 1) put side by side. *)
Fixpoint gather (f : nat -> res N) (n i : nat) (acc : N) : res N :=
  match n with
  | 0 => Ok acc
  | S n' =>
      do b <- f i;
      do y <- shl b (i * 8);
      gather f n' (i + 1) (N.lor acc y)
  end.

(** bp_vector_support.hpp:74-100 find_close_in_word: None = false. The tables have 9 columns: a further one is outside of the row (here undefined). bit_pos is
    not 0 (asserted in the code), so the subtraction does not wrap around. uint64_t(cur_exc) wraps around. *)
Definition find_close_in_word (w counts : N) (cur : Z) : res (option nat) :=
  let cum := wmul (wadd (Z.to_N (cur mod Z.of_N W64)) (wrap (N.shiftl (wsub (wmul 2 counts) (wmul 8 ones_step_8)) 8))) ones_step_8 in
  do mins <- gather (fun i => do c <- byte_at w (i * 8); Ok (Z.to_N (fwd_min c))) 8 0 0;
  do s <- lsb2 (leq_step_8 cum mins);
  match s with
  | None => Ok None
  | Some shift =>
      do c <- byte_at w shift;
      do e <- byte_at cum shift;
      do b <- get (fwd_pos c) (N.to_nat e);
      Ok (Some (shift + b - 1))
  end.
(** bp_vector_support.hpp:102-131 find_open_in_word. *)
Definition find_open_in_word (w counts : N) (cur : Z) : res (option nat) :=
  let rev_counts := reverse_bytes counts in
  let cum := wmul (wsub (Z.to_N (cur mod Z.of_N W64)) (wrap (N.shiftl (wsub (wmul 2 rev_counts) (wmul 8 ones_step_8)) 8))) ones_step_8 in
  do maxs <- gather (fun i => do c <- byte_at w (64 - i * 8 - 8); Ok (Z.to_N (bwd_min c))) 8 0 0;
  do s <- lsb2 (leq_step_8 cum maxs);
  match s with
  | None => Ok None
  | Some shift =>
      do c <- byte_at w (64 - shift - 8);
      do e <- byte_at cum shift;
      do b <- get (bwd_pos c) (N.to_nat e);
      Ok (Some (64 - (shift + b)))
  end.

(** bp_vector_support.hpp:169-182: the words sub, ..., sub + n - 1. *)
Fixpoint close_words (ws : list N) (n sub : nat) (exc : Z) : res (option nat) :=
  match n with
  | 0 => Ok None
  | S n' =>
      do w <- get ws sub;
      let counts := byte_counts w in
      do r <- (if (exc <=? 64)%Z then find_close_in_word w counts exc else Ok None);
      match r with
      | Some x => Ok (Some (x + sub * 64))
      | None =>
          do exc <- i32 (exc + to_i32 (2 * Z.of_N (bytes_sum counts) - 64));
          close_words ws n' (sub + 1) exc
      end
  end.
(** bp_vector_support.hpp:161-184 find_close_in_block; None = false. *)
Definition find_close_in_block (ws : list N) (offset : nat) (exc : Z) (start : nat) : res (option nat) :=
  if (Z.of_nat ((4 - start) * 64) <? exc)%Z then Ok None else close_words ws (4 - start) (offset + start) exc.
(** bp_vector_support.hpp:238-251: the words offset + n - 1, ..., offset. *)
Fixpoint open_words (ws : list N) (offset n : nat) (exc : Z) : res (option nat) :=
  match n with
  | 0 => Ok None
  | S n' =>
      do w <- get ws (offset + n');
      let counts := byte_counts w in
      do r <- (if (exc <=? 64)%Z then find_open_in_word w counts exc else Ok None);
      match r with
      | Some x => Ok (Some (x + (offset + n') * 64))
      | None =>
          do exc <- i32 (exc - to_i32 (2 * Z.of_N (bytes_sum counts) - 64));
          open_words ws offset n' exc
      end
  end.
(** bp_vector_support.hpp:230-253 find_open_in_block; None = false. *)
Definition find_open_in_block (ws : list N) (offset : nat) (exc : Z) (start : nat) : res (option nat) :=
  if (Z.of_nat (start * 64) <? exc)%Z then Ok None else open_words ws offset start exc.

(** bp_vector_support.hpp:305-313: the blocks block, ..., block + n - 1. *)
Fixpoint blocks_up (mins : list Z) (sexc exc : Z) (n block : nat) : res (option nat) :=
  match n with
  | 0 => Ok None
  | S n' =>
      do m <- get mins block;
      do v <- i32 (sexc + m);
      if (v <=? exc)%Z then Ok (Some block) else blocks_up mins sexc exc n' (block + 1)
  end.
(** bp_vector_support.hpp:315-321: the blocks first + n - 1, ..., first. *)
Fixpoint blocks_down (mins : list Z) (sexc exc : Z) (first n : nat) : res (option nat) :=
  match n with
  | 0 => Ok None
  | S n' =>
      do m <- get mins (first + n');
      do v <- i32 (sexc + m);
      if (v <=? exc)%Z then Ok (Some (first + n')) else blocks_down mins sexc exc first n'
  end.
(** bp_vector_support.hpp:298-325 search_block_in_superblock<direction>; [up] is direction = 1. None = false. *)
Definition search_in_superblock (up : bool) (p : bpv) (block : nat) (exc : Z) : res (option nat) :=
  let s := block / 32 in
  do sexc <- block_excess (bp_rs p) (s * 32);
  if up then blocks_up (bp_block_min p) sexc exc (Nat.min ((s + 1) * 32) (length (bp_block_min p)) - block) block
  else blocks_down (bp_block_min p) sexc exc (s * 32) (block + 1 - s * 32).

(** bp_vector_support.hpp:336-339 in_node_range. *)
Definition in_node_range (tree : list Z) (node : nat) (exc : Z) : res bool := do t <- get tree node; Ok (t <=? exc)%Z.
(** bp_vector_support.hpp:351-362: up the tree. *)
Definition climb_step (up : bool) (tree : list Z) (exc : Z) (cur : nat) : res (nat + nat) :=
  let going_back := cur mod 2 =? (if up then 1 else 0) in
  if going_back then Ok (inl (cur / 2))
  else
    let next := if up then cur + 1 else cur - 1 in
    do b <- in_node_range tree next exc;
    if b then Ok (inr next) else Ok (inl (cur / 2)).
(** bp_vector_support.hpp:366-377: down the tree. *)
Definition descend_step (up : bool) (tree : list Z) (internal : nat) (exc : Z) (cur : nat) : res (nat + nat) :=
  if cur <? internal then
    let next := cur * 2 + (if up then 0 else 1) in
    do b <- in_node_range tree next exc;
    if b then Ok (inl next) else Ok (inl (if up then next + 1 else next - 1))
  else Ok (inr cur).
(** bp_vector_support.hpp:341-388 search_min_tree<direction>; None = -1U. *)
Definition search_min_tree (up : bool) (p : bpv) (block : nat) (exc : Z) : res (option nat) :=
  do r <- search_in_superblock up p block exc;
  match r with
  | Some b => Ok (Some b)
  | None =>
      let cur := bp_internal p + block / 32 in
      do cur <- loop (cur + 1) (climb_step up (bp_tree p) exc) cur;
      do cur <- loop (bp_internal p + 1) (descend_step up (bp_tree p) (bp_internal p) exc) cur;
      search_in_superblock up p ((cur - bp_internal p) * 32 + (if up then 0 else 31)) exc
  end.

(** x << n for n up to 64: a shift by 64 has no defined result; [wide] is what happens then (bp_vector_support.hpp:194, 262). *)
Definition shl_wide (wide : res N) (x : N) (n : nat) : res N := if n <? 64 then shl x n else wide.

(** bp_vector_support.hpp:186-228 find_close; None = -1U. If no block is found, the block number -1U is used: outside of the vector. *)
Definition find_close (wide : res N) (p : bpv) (pos : nat) : res (option nat) :=
  let ws := v_words (rs_bv (bp_rs p)) in
  let word_pos := (pos + 1) / 64 in
  let shift := (pos + 1) mod 64 in
  do w <- get ws word_pos;
  do shifted <- shr w shift;
  do pad <- shl_wide wide ALL (64 - shift);
  let padded := N.lor shifted (N.land (if shift =? 0 then 0%N else ALL) pad) in
  let counts := byte_counts padded in
  do r <- find_close_in_word padded counts 1;
  match r with
  | Some x => Ok (Some (x + (pos + 1)))
  | None =>
      let block := word_pos / 4 in
      let local_rank := (Z.of_N (bytes_sum counts) - Z.of_nat shift)%Z in
      let local_excess := to_i32 (2 * local_rank - (64 - Z.of_nat shift)) in
      do e <- i32 (local_excess + 1);
      do r <- find_close_in_block ws (block * 4) e (word_pos mod 4 + 1);
      match r with
      | Some x => Ok (Some x)
      | None =>
          do pos_excess <- excess (bp_rs p) pos;
          do found <- search_min_tree true p (block + 1) pos_excess;
          match found with
          | None => UB
          | Some fb =>
              do be <- block_excess (bp_rs p) fb;
              do d <- i32 (be - pos_excess);
              find_close_in_block ws (fb * 4) d 0
          end
      end
  end.

(** bp_vector_support.hpp:255-296 find_open; None = -1U. The result in the word is at least 64 - len >= 64 - pos, so adding pos - 64 does not go below 0.
    Block number 0 - 1 is outside of the vector, and so is the block number -1U if no block is found. *)
Definition find_open (wide : res N) (p : bpv) (pos : nat) : res (option nat) :=
  let ws := v_words (rs_bv (bp_rs p)) in
  let word_pos := pos / 64 in
  let len := pos mod 64 in
  do w <- get ws word_pos;
  do moved <- shl_wide wide w (64 - len);
  let shifted := N.land (if len =? 0 then 0%N else ALL) moved in
  let counts := byte_counts shifted in
  do r <- find_open_in_word shifted counts 1;
  match r with
  | Some x => Ok (Some (x + pos - 64))
  | None =>
      let block := word_pos / 4 in
      do local_excess <- i32 (- to_i32 (2 * Z.of_N (bytes_sum counts) - Z.of_nat len));
      do e <- i32 (local_excess + 1);
      do r <- find_open_in_block ws (block * 4) e (word_pos mod 4);
      match r with
      | Some x => Ok (Some x)
      | None =>
          do pe <- excess (bp_rs p) pos;
          do pos_excess <- i32 (pe - 1);
          if block =? 0 then UB
          else
            do found <- search_min_tree false p (block - 1) pos_excess;
            match found with
            | None => UB
            | Some fb =>
                do be <- block_excess (bp_rs p) (fb + 1);
                do d <- i32 (be - pos_excess);
                find_open_in_block ws (fb * 4) d 4
            end
      end
  end.
(** bp_vector.hpp:48-51 enclose. *)
Definition enclose (wide : res N) (p : bpv) (pos : nat) : res (option nat) := find_open wide p pos.
