(** Model of include/ef/darray.hpp. No proofs. *)
From Coq Require Import ZArith.
From Verif Require Import Base M_Word M_Bits.
Local Open Scope nat_scope.

(** ef/darray.hpp:148-158: the two word getters; [neg]: negating_getter. *)
Definition getter (neg : bool) (w : N) : N := if neg then wnot w else w.

(** The state of the constructor (ef/darray.hpp:17-20 and m_positions): cur_block_positions, block_inventory (int64_t),
    subblock_inventory (uint16_t), overflow_positions. *)
Record dab := { da_n : nat; da_cur : list nat; da_blocks : list Z; da_subs : list N; da_over : list nat }.
(** As above: ef/darray.hpp:17-20. *)
Definition dab_empty : dab := {| da_n := 0; da_cur := []; da_blocks := []; da_subs := []; da_over := [] |}.

(** i = 0, subblock_size, 2 * subblock_size, ... below [n] (ef/darray.hpp:120-124). *)
Definition sub_starts (n : nat) : list nat := map (fun i => 32 * i) (seq 0 ((n + 31) / 32)).

(** ef/darray.hpp:113-136 flush_cur_block. *)
Definition da_flush (s : dab) : res dab :=
  match da_cur s with
  | [] => UB
  | front :: _ =>
      let back := List.last (da_cur s) front in
      if (N.of_nat (back - front) <? 65536)%N then
        Ok {| da_n := da_n s; da_cur := []; da_blocks := da_blocks s ++ [Z.of_nat front];
              da_subs := da_subs s ++ map (fun i => (N.of_nat (nth i (da_cur s) O - front) mod 65536)%N) (sub_starts (length (da_cur s)));
              da_over := da_over s |}
      else
        Ok {| da_n := da_n s; da_cur := []; da_blocks := da_blocks s ++ [(- Z.of_nat (length (da_over s)) - 1)%Z];
              da_subs := da_subs s ++ map (fun _ => 65535%N) (sub_starts (length (da_cur s)));
              da_over := da_over s ++ da_cur s |}
  end.

(** ef/darray.hpp:31-41: one position. *)
Definition da_push (s : dab) (p : nat) : res dab :=
  let s := {| da_n := da_n s; da_cur := da_cur s ++ [p]; da_blocks := da_blocks s; da_subs := da_subs s; da_over := da_over s |} in
  do s <- (if length (da_cur s) =? 1024 then da_flush s else Ok s);
  Ok {| da_n := da_n s + 1; da_cur := da_cur s; da_blocks := da_blocks s; da_subs := da_subs s; da_over := da_over s |}.

(** ef/darray.hpp:26-42: the positions of one word; [size] = bv.size(). *)
Definition da_word_step (size : nat) (st : nat * N * dab) : res ((nat * N * dab) + dab) :=
  let '(pos, w, s) := st in
  do o <- lsb2 w;
  match o with
  | None => Ok (inr s)
  | Some l =>
      let pos := pos + l in
      do w <- shr w l;
      if size <=? pos then Ok (inr s)
      else
        do s <- da_push s pos;
        do w <- shr w 1;
        Ok (inl (pos + 1, w, s))
  end.
(** ef/darray.hpp:22-43; at most 64 ones and one more test per word. *)
Fixpoint da_words (neg : bool) (size idx : nat) (ws : list N) (s : dab) : res dab :=
  match ws with
  | [] => Ok s
  | w :: ws' =>
      do s <- loop 66 (da_word_step size) (64 * idx, getter neg w, s);
      da_words neg size (idx + 1) ws' s
  end.
(** ef/darray.hpp:14-51. *)
Record darray := { d_n : nat; d_blocks : list Z; d_subs : list N; d_over : list nat }.
(** As above: ef/darray.hpp:14-51. *)
Definition da_build (neg : bool) (v : bv) : res darray :=
  do s <- da_words neg (v_size v) 0 (v_words v) dab_empty;
  do s <- match da_cur s with [] => Ok s | _ => da_flush s end;
  Ok {| d_n := da_n s; d_blocks := da_blocks s; d_subs := da_subs s; d_over := da_over s |}.

(** ef/darray.hpp:83-88: reminder, word_idx, word. *)
Definition da_scan_step (neg : bool) (ws : list N) (st : nat * nat * N) : res ((nat * nat * N) + nat) :=
  let '(r, idx, w) := st in
  let c := popcount w in
  if r <? c then do i <- select_in_word w r; Ok (inr (64 * idx + i))
  else do w' <- get ws (idx + 1); Ok (inl (r - c, idx + 1, getter neg w')).
(** ef/darray.hpp:60-92 select. *)
Definition da_select (neg : bool) (d : darray) (v : bv) (fuel idx : nat) : res nat :=
  do block_pos <- get (d_blocks d) (idx / 1024);
  if (block_pos <? 0)%Z then get (d_over d) (Z.to_nat (- block_pos - 1) + idx mod 1024)
  else
    do sub <- get (d_subs d) (idx / 32);
    let start := Z.to_nat block_pos + N.to_nat sub in
    let reminder := idx mod 32 in
    if reminder =? 0 then Ok start
    else
      do w <- get (v_words v) (start / 64);
      do m <- shl ALL (start mod 64);
      loop fuel (da_scan_step neg (v_words v)) (reminder, start / 64, N.land (getter neg w) m).
