(** Model of include/succinct_rmq/rs_bit_vector.hpp. No proofs. *)
From Verif Require Import Base M_Word M_Bits M_Darray.
Local Open Scope nat_scope.

(** util.hpp:237-247 constants. *)
Definition ones_step_9 : N := 18049651735527937.
(** As above: util.hpp:237-247. *)
Definition msbs_step_9 : N := wmul 256 ones_step_9.
(** As above: util.hpp:237-247. *)
Definition inv_count_step_9 : N := 18084973950274567.
(** util.hpp:262-266 uleq_step_9: compares seven fields of nine bits at once. *)
Definition uleq_step_9 (x y : N) : N :=
  N.shiftr (N.land (N.lxor (N.lor (wsub (N.lor y msbs_step_9) (N.land x (wnot msbs_step_9))) (N.lxor x y)) (N.land x (wnot y))) msbs_step_9) 8.

(** The members: the bit vector, m_block_rank_pairs, m_select_hints, m_select0_hints (rs_bit_vector.hpp:194-196). *)
Record rsv := { rs_bv : bv; rs_pairs : list N; rs_hints : list nat; rs_hints0 : list nat }.

(** rs_bit_vector.hpp:43-45 num_ones: *(end - 2). *)
Definition rs_num_ones (r : rsv) : res nat :=
  if length (rs_pairs r) <? 2 then UB else do x <- get (rs_pairs r) (length (rs_pairs r) - 2); Ok (N.to_nat x).
(** rs_bit_vector.hpp:164-191; blocks of 8 words. block_rank0 is never negative. *)
Definition rs_num_blocks (r : rsv) : nat := length (rs_pairs r) / 2 - 1.
(** As above: rs_bit_vector.hpp:164-191. *)
Definition block_rank (r : rsv) (b : nat) : res N := get (rs_pairs r) (b * 2).
(** As above: rs_bit_vector.hpp:164-191. *)
Definition sub_block_ranks (r : rsv) (b : nat) : res N := get (rs_pairs r) (b * 2 + 1).
(** As above: rs_bit_vector.hpp:164-191. *)
Definition block_rank0 (r : rsv) (b : nat) : res N := do x <- block_rank r b; Ok (N.of_nat (b * 8 * 64) - x)%N.
(** As above: rs_bit_vector.hpp:164-191. *)
Definition sub_block_rank (r : rsv) (sub : nat) : res N :=
  do x <- block_rank r (sub / 8);
  do s <- sub_block_ranks r (sub / 8);
  do y <- shr s ((7 - sub mod 8) * 9);
  Ok (x + N.land y 511)%N.

(** rs_bit_vector.hpp:51-68 rank, rank0. *)
Definition rs_rank (r : rsv) (pos : nat) : res nat :=
  if pos =? v_size (rs_bv r) then rs_num_ones r
  else
    do x <- sub_block_rank r (pos / 64);
    if pos mod 64 =? 0 then Ok (N.to_nat x)
    else
      do w <- get (v_words (rs_bv r)) (pos / 64);
      do y <- shl w (64 - pos mod 64);
      Ok (N.to_nat x + popcount y).
(** As above: rs_bit_vector.hpp:51-68. *)
Definition rs_rank0 (r : rsv) (pos : nat) : res nat := do x <- rs_rank r pos; Ok (pos - x).

(** rs_bit_vector.hpp:205-221: next_rank, cur_subrank, subranks, block_rank_pairs. *)
Record rsb := { g_pairs : list N; g_next : N; g_cur : N; g_sub : N }.
(** As above: rs_bit_vector.hpp:205-221. *)
Definition push_field (s x : N) : N := N.lor (wrap (N.shiftl s 9)) x.
(** As above: rs_bit_vector.hpp:205-221. *)
Definition rsb_word (i : nat) (w : N) (s : rsb) : rsb :=
  let pop := N.of_nat (popcount w) in
  let sub := if i mod 8 =? 0 then g_sub s else push_field (g_sub s) (g_cur s) in
  let next := (g_next s + pop)%N in
  let cur := (g_cur s + pop)%N in
  if i mod 8 =? 7 then {| g_pairs := g_pairs s ++ [sub; next]; g_next := next; g_cur := 0; g_sub := 0 |}
  else {| g_pairs := g_pairs s; g_next := next; g_cur := cur; g_sub := sub |}.
(** As above: rs_bit_vector.hpp:205-221. *)
Fixpoint rsb_words (i : nat) (ws : list N) (s : rsb) : rsb :=
  match ws with
  | [] => s
  | w :: ws' => rsb_words (i + 1) ws' (rsb_word i w s)
  end.
(** rs_bit_vector.hpp:222-226. *)
Fixpoint pad_fields (n : nat) (s x : N) : N :=
  match n with
  | 0 => s
  | S n' => pad_fields n' (push_field s x) x
  end.
(** rs_bit_vector.hpp:199-235. *)
Definition rs_build_pairs (ws : list N) : list N :=
  let s := rsb_words 0 ws {| g_pairs := [0%N]; g_next := 0; g_cur := 0; g_sub := 0 |} in
  let sub := pad_fields (8 - length ws mod 8) (g_sub s) (g_cur s) in
  g_pairs s ++ [sub] ++ (if length ws mod 8 =? 0 then [] else [g_next s; 0%N]).

(** rs_bit_vector.hpp:237-261: the hints of select, and with [neg] those of select0; [n] blocks left, from block [i] on. *)
Definition block_rank_of (neg : bool) : rsv -> nat -> res N := if neg then block_rank0 else block_rank.
(** As above: rs_bit_vector.hpp:237-261. *)
Fixpoint rs_hints_go (neg : bool) (r : rsv) (n i : nat) (threshold : N) (acc : list nat) : res (list nat) :=
  match n with
  | 0 => Ok (acc ++ [rs_num_blocks r])
  | S n' =>
      do x <- block_rank_of neg r (i + 1);
      if (threshold <? x)%N then rs_hints_go neg r n' (i + 1) (threshold + 1024) (acc ++ [i])
      else rs_hints_go neg r n' (i + 1) threshold acc
  end.
(** rs_bit_vector.hpp:16-20 and 198-262. *)
Definition rs_build (v : bv) (with_hints with_hints0 : bool) : res rsv :=
  let r := {| rs_bv := v; rs_pairs := rs_build_pairs (v_words v); rs_hints := []; rs_hints0 := [] |} in
  do h <- (if with_hints then rs_hints_go false r (rs_num_blocks r) 0 1024 [] else Ok []);
  do h0 <- (if with_hints0 then rs_hints_go true r (rs_num_blocks r) 0 1024 [] else Ok []);
  Ok {| rs_bv := v; rs_pairs := rs_pairs r; rs_hints := h; rs_hints0 := h0 |}.

(** rs_bit_vector.hpp:84-94, 130-140: the binary search for the block. *)
Definition rs_search_step (neg : bool) (r : rsv) (n : nat) (st : nat * nat) : res ((nat * nat) + nat) :=
  let '(a, b) := st in
  if 1 <? b - a then
    let mid := a + (b - a) / 2 in
    do x <- block_rank_of neg r mid;
    Ok (inl (if (x <=? N.of_nat n)%N then (mid, b) else (a, mid)))
  else Ok (inr a).
(** rs_bit_vector.hpp:70-114 select; with [neg] rs_bit_vector.hpp:116-161 select0. The fuel of the search is enough for every a < b. *)
Definition rs_select (neg : bool) (r : rsv) (n : nat) : res nat :=
  let hints := if neg then rs_hints0 r else rs_hints r in
  do (a, b) <- match hints with
               | [] => Ok (0, rs_num_blocks r)
               | _ =>
                   let chunk := n / 1024 in
                   do a <- (if chunk =? 0 then Ok 0 else get hints (chunk - 1));
                   do b <- get hints chunk;
                   Ok (a, b + 1)
               end;
  do block <- loop (b - a + 1) (rs_search_step neg r n) (a, b);
  do cur <- block_rank_of neg r block;
  let parallel := wmul (N.of_nat n - cur) ones_step_9 in
  do s <- sub_block_ranks r block;
  let subs := if neg then wsub (wmul 64 inv_count_step_9) s else s in
  let off := N.to_nat (N.land (N.shiftr (wmul (uleq_step_9 subs parallel) ones_step_9) 54) 7) in
  do y <- shr subs ((7 - off) * 9);
  let cur := (cur + N.land y 511)%N in
  let word := block * 8 + off in
  do w <- get (v_words (rs_bv r)) word;
  do i <- select_in_word (getter neg w) (N.to_nat (N.of_nat n - cur));
  Ok (word * 64 + i).
