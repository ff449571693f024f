(** Model of the word-level primitives of include/util.hpp: 64-bit words are numbers below 2^64. No proofs. *)
From Verif Require Import Base.

(** bit_vector.hpp:227: uint64_t. *)
Definition W64 : N := 18446744073709551616.
(** uint64_t arithmetic. The model's words are below 2^64 (the arithmetic of util.hpp:190-347). *)
Definition wrap (x : N) : N := (x mod W64)%N.
(** the arithmetic of util.hpp:190-347. *)
Definition wadd (x y : N) : N := wrap (x + y).
(** the arithmetic of util.hpp:190-347. *)
Definition wsub (x y : N) : N := wrap (x + W64 - y).
(** the arithmetic of util.hpp:190-347. *)
Definition wmul (x y : N) : N := wrap (x * y).
(** the arithmetic of util.hpp:190-347. *)
Definition wnot (x : N) : N := N.lnot x 64.
(** x << n and x >> n of a uint64_t are undefined for n >= 64 (<< in util.hpp:190-347). *)
Definition shl (x : N) (n : nat) : res N := if n <? 64 then Ok (wrap (N.shiftl x (N.of_nat n))) else UB.
(** >> in util.hpp:190-347. *)
Definition shr (x : N) (n : nat) : res N := if n <? 64 then Ok (N.shiftr x (N.of_nat n)) else UB.

(** Bit i of a word (bit_vector.hpp:259-264). *)
Definition tb (w : N) (i : nat) : bool := N.testbit w (N.of_nat i).

(** essentials::words_for (bit_vector.hpp:76). *)
Definition words_for (bits : nat) : nat := (bits + 63) / 64.

(** __builtin_clzll and __builtin_ctzll, undefined for 0 (util.hpp:190-197). *)
Definition clz (x : N) : res nat := if (x =? 0)%N then UB else Ok (63 - N.to_nat (N.log2 x)).
(** util.hpp:212-218. *)
Fixpoint ctz_pos (p : positive) : nat := match p with xO p => S (ctz_pos p) | _ => 0 end.
(** util.hpp:212-218. *)
Definition ctz (x : N) : res nat := match x with N0 => UB | Npos p => Ok (ctz_pos p) end.

(** util.hpp:190-197 msb(x): 255 for 0 (uint8_t(-1U)); the assertion is off in release builds. *)
Definition msb (x : N) : res nat := if (x =? 0)%N then Ok 255 else do c <- clz x; Ok (63 - c).
(** util.hpp:199-210 bsr64, msb(x, ret): None = false. *)
Definition msb2 (x : N) : res (option nat) := if (x =? 0)%N then Ok None else do c <- clz x; Ok (Some (63 - c)).
(** util.hpp:212-218 lsb(x, ret). *)
Definition lsb2 (x : N) : res (option nat) := if (x =? 0)%N then Ok None else do c <- ctz x; Ok (Some c).
(** util.hpp:220-225 lsb(x). *)
Definition lsb (x : N) : res nat := if (x =? 0)%N then Ok 255 else ctz x.
(** util.hpp:227-233 ceil_log2, floor_log2. *)
Definition ceil_log2_w (x : N) : res nat := if (1 <? x)%N then do m <- msb (x - 1); Ok (m + 1) else Ok 0.
(** As above: util.hpp:227-233. *)
Definition floor_log2_w (x : N) : res nat := if (1 <? x)%N then msb x else Ok 0.

(** util.hpp:235-254 constants. *)
Definition ones_step_4 : N := 1229782938247303441.
(** As above: util.hpp:235-254. *)
Definition ones_step_8 : N := 72340172838076673.
(** As above: util.hpp:235-254. *)
Definition msbs_step_8 : N := wmul 128 ones_step_8.
(** As above: util.hpp:235-254. *)
Definition magic_mask_1 : N := 6148914691236517205.
(** As above: util.hpp:235-254. *)
Definition magic_mask_2 : N := 3689348814741910323.
(** As above: util.hpp:235-254. *)
Definition magic_mask_3 : N := 1085102592571150095.
(** As above: util.hpp:235-254. *)
Definition magic_mask_4 : N := 71777214294589695.
(** As above: util.hpp:235-254. *)
Definition magic_mask_5 : N := 281470681808895.

(** util.hpp:268-273 byte_counts. *)
Definition byte_counts (x : N) : N :=
  let x := wsub x (N.shiftr (N.land x (wmul 10 ones_step_4)) 1) in
  let x := wadd (N.land x (wmul 3 ones_step_4)) (N.land (N.shiftr x 2) (wmul 3 ones_step_4)) in
  N.land (wadd x (N.shiftr x 4)) (wmul 15 ones_step_8).
(** util.hpp:275-277 bytes_sum. *)
Definition bytes_sum (x : N) : N := N.shiftr (wmul x ones_step_8) 56.

(** util.hpp:287-296 reverse_bytes, without USE_INTRINSICS. *)
Definition reverse_bytes (x : N) : N :=
  let x := N.lor (N.land (N.shiftr x 8) magic_mask_4) (wrap (N.shiftl (N.land x magic_mask_4) 8)) in
  let x := N.lor (N.land (N.shiftr x 16) magic_mask_5) (wrap (N.shiftl (N.land x magic_mask_5) 16)) in
  N.lor (N.shiftr x 32) (wrap (N.shiftl x 32)).
(** util.hpp:298-303 reverse_bits. *)
Definition reverse_bits (x : N) : N :=
  let x := N.lor (N.land (N.shiftr x 1) magic_mask_1) (wrap (N.shiftl (N.land x magic_mask_1) 1)) in
  let x := N.lor (N.land (N.shiftr x 2) magic_mask_2) (wrap (N.shiftl (N.land x magic_mask_2) 2)) in
  let x := N.lor (N.land (N.shiftr x 4) magic_mask_3) (wrap (N.shiftl (N.land x magic_mask_3) 4)) in
  reverse_bytes x.

(** util.hpp:305-311 popcount, without USE_INTRINSICS (with it: the machine instruction). *)
Definition popcount (x : N) : nat := N.to_nat (bytes_sum (byte_counts x)).

(** util.hpp:97-181 tables::select_in_byte. *)
Definition select_in_byte : list nat :=
  [8; 0; 1; 0; 2; 0; 1; 0; 3; 0; 1; 0; 2; 0; 1; 0; 4; 0; 1; 0; 2; 0; 1; 0; 3; 0; 1; 0; 2; 0; 1; 0; 5; 0; 1; 0; 2; 0; 1; 0; 3; 0; 1; 0; 2; 0; 1; 0; 4; 0; 1; 0; 2; 0; 1; 0; 3; 0; 1; 0; 2; 0; 1; 0;
   6; 0; 1; 0; 2; 0; 1; 0; 3; 0; 1; 0; 2; 0; 1; 0; 4; 0; 1; 0; 2; 0; 1; 0; 3; 0; 1; 0; 2; 0; 1; 0; 5; 0; 1; 0; 2; 0; 1; 0; 3; 0; 1; 0; 2; 0; 1; 0; 4; 0; 1; 0; 2; 0; 1; 0; 3; 0; 1; 0; 2; 0; 1; 0;
   7; 0; 1; 0; 2; 0; 1; 0; 3; 0; 1; 0; 2; 0; 1; 0; 4; 0; 1; 0; 2; 0; 1; 0; 3; 0; 1; 0; 2; 0; 1; 0; 5; 0; 1; 0; 2; 0; 1; 0; 3; 0; 1; 0; 2; 0; 1; 0; 4; 0; 1; 0; 2; 0; 1; 0; 3; 0; 1; 0; 2; 0; 1; 0;
   6; 0; 1; 0; 2; 0; 1; 0; 3; 0; 1; 0; 2; 0; 1; 0; 4; 0; 1; 0; 2; 0; 1; 0; 3; 0; 1; 0; 2; 0; 1; 0; 5; 0; 1; 0; 2; 0; 1; 0; 3; 0; 1; 0; 2; 0; 1; 0; 4; 0; 1; 0; 2; 0; 1; 0; 3; 0; 1; 0; 2; 0; 1; 0;
   8; 8; 8; 1; 8; 2; 2; 1; 8; 3; 3; 1; 3; 2; 2; 1; 8; 4; 4; 1; 4; 2; 2; 1; 4; 3; 3; 1; 3; 2; 2; 1; 8; 5; 5; 1; 5; 2; 2; 1; 5; 3; 3; 1; 3; 2; 2; 1; 5; 4; 4; 1; 4; 2; 2; 1; 4; 3; 3; 1; 3; 2; 2; 1;
   8; 6; 6; 1; 6; 2; 2; 1; 6; 3; 3; 1; 3; 2; 2; 1; 6; 4; 4; 1; 4; 2; 2; 1; 4; 3; 3; 1; 3; 2; 2; 1; 6; 5; 5; 1; 5; 2; 2; 1; 5; 3; 3; 1; 3; 2; 2; 1; 5; 4; 4; 1; 4; 2; 2; 1; 4; 3; 3; 1; 3; 2; 2; 1;
   8; 7; 7; 1; 7; 2; 2; 1; 7; 3; 3; 1; 3; 2; 2; 1; 7; 4; 4; 1; 4; 2; 2; 1; 4; 3; 3; 1; 3; 2; 2; 1; 7; 5; 5; 1; 5; 2; 2; 1; 5; 3; 3; 1; 3; 2; 2; 1; 5; 4; 4; 1; 4; 2; 2; 1; 4; 3; 3; 1; 3; 2; 2; 1;
   7; 6; 6; 1; 6; 2; 2; 1; 6; 3; 3; 1; 3; 2; 2; 1; 6; 4; 4; 1; 4; 2; 2; 1; 4; 3; 3; 1; 3; 2; 2; 1; 6; 5; 5; 1; 5; 2; 2; 1; 5; 3; 3; 1; 3; 2; 2; 1; 5; 4; 4; 1; 4; 2; 2; 1; 4; 3; 3; 1; 3; 2; 2; 1;
   8; 8; 8; 8; 8; 8; 8; 2; 8; 8; 8; 3; 8; 3; 3; 2; 8; 8; 8; 4; 8; 4; 4; 2; 8; 4; 4; 3; 4; 3; 3; 2; 8; 8; 8; 5; 8; 5; 5; 2; 8; 5; 5; 3; 5; 3; 3; 2; 8; 5; 5; 4; 5; 4; 4; 2; 5; 4; 4; 3; 4; 3; 3; 2;
   8; 8; 8; 6; 8; 6; 6; 2; 8; 6; 6; 3; 6; 3; 3; 2; 8; 6; 6; 4; 6; 4; 4; 2; 6; 4; 4; 3; 4; 3; 3; 2; 8; 6; 6; 5; 6; 5; 5; 2; 6; 5; 5; 3; 5; 3; 3; 2; 6; 5; 5; 4; 5; 4; 4; 2; 5; 4; 4; 3; 4; 3; 3; 2;
   8; 8; 8; 7; 8; 7; 7; 2; 8; 7; 7; 3; 7; 3; 3; 2; 8; 7; 7; 4; 7; 4; 4; 2; 7; 4; 4; 3; 4; 3; 3; 2; 8; 7; 7; 5; 7; 5; 5; 2; 7; 5; 5; 3; 5; 3; 3; 2; 7; 5; 5; 4; 5; 4; 4; 2; 5; 4; 4; 3; 4; 3; 3; 2;
   8; 7; 7; 6; 7; 6; 6; 2; 7; 6; 6; 3; 6; 3; 3; 2; 7; 6; 6; 4; 6; 4; 4; 2; 6; 4; 4; 3; 4; 3; 3; 2; 7; 6; 6; 5; 6; 5; 5; 2; 6; 5; 5; 3; 5; 3; 3; 2; 6; 5; 5; 4; 5; 4; 4; 2; 5; 4; 4; 3; 4; 3; 3; 2;
   8; 8; 8; 8; 8; 8; 8; 8; 8; 8; 8; 8; 8; 8; 8; 3; 8; 8; 8; 8; 8; 8; 8; 4; 8; 8; 8; 4; 8; 4; 4; 3; 8; 8; 8; 8; 8; 8; 8; 5; 8; 8; 8; 5; 8; 5; 5; 3; 8; 8; 8; 5; 8; 5; 5; 4; 8; 5; 5; 4; 5; 4; 4; 3;
   8; 8; 8; 8; 8; 8; 8; 6; 8; 8; 8; 6; 8; 6; 6; 3; 8; 8; 8; 6; 8; 6; 6; 4; 8; 6; 6; 4; 6; 4; 4; 3; 8; 8; 8; 6; 8; 6; 6; 5; 8; 6; 6; 5; 6; 5; 5; 3; 8; 6; 6; 5; 6; 5; 5; 4; 6; 5; 5; 4; 5; 4; 4; 3;
   8; 8; 8; 8; 8; 8; 8; 7; 8; 8; 8; 7; 8; 7; 7; 3; 8; 8; 8; 7; 8; 7; 7; 4; 8; 7; 7; 4; 7; 4; 4; 3; 8; 8; 8; 7; 8; 7; 7; 5; 8; 7; 7; 5; 7; 5; 5; 3; 8; 7; 7; 5; 7; 5; 5; 4; 7; 5; 5; 4; 5; 4; 4; 3;
   8; 8; 8; 7; 8; 7; 7; 6; 8; 7; 7; 6; 7; 6; 6; 3; 8; 7; 7; 6; 7; 6; 6; 4; 7; 6; 6; 4; 6; 4; 4; 3; 8; 7; 7; 6; 7; 6; 6; 5; 7; 6; 6; 5; 6; 5; 5; 3; 7; 6; 6; 5; 6; 5; 5; 4; 6; 5; 5; 4; 5; 4; 4; 3;
   8; 8; 8; 8; 8; 8; 8; 8; 8; 8; 8; 8; 8; 8; 8; 8; 8; 8; 8; 8; 8; 8; 8; 8; 8; 8; 8; 8; 8; 8; 8; 4; 8; 8; 8; 8; 8; 8; 8; 8; 8; 8; 8; 8; 8; 8; 8; 5; 8; 8; 8; 8; 8; 8; 8; 5; 8; 8; 8; 5; 8; 5; 5; 4;
   8; 8; 8; 8; 8; 8; 8; 8; 8; 8; 8; 8; 8; 8; 8; 6; 8; 8; 8; 8; 8; 8; 8; 6; 8; 8; 8; 6; 8; 6; 6; 4; 8; 8; 8; 8; 8; 8; 8; 6; 8; 8; 8; 6; 8; 6; 6; 5; 8; 8; 8; 6; 8; 6; 6; 5; 8; 6; 6; 5; 6; 5; 5; 4;
   8; 8; 8; 8; 8; 8; 8; 8; 8; 8; 8; 8; 8; 8; 8; 7; 8; 8; 8; 8; 8; 8; 8; 7; 8; 8; 8; 7; 8; 7; 7; 4; 8; 8; 8; 8; 8; 8; 8; 7; 8; 8; 8; 7; 8; 7; 7; 5; 8; 8; 8; 7; 8; 7; 7; 5; 8; 7; 7; 5; 7; 5; 5; 4;
   8; 8; 8; 8; 8; 8; 8; 7; 8; 8; 8; 7; 8; 7; 7; 6; 8; 8; 8; 7; 8; 7; 7; 6; 8; 7; 7; 6; 7; 6; 6; 4; 8; 8; 8; 7; 8; 7; 7; 6; 8; 7; 7; 6; 7; 6; 6; 5; 8; 7; 7; 6; 7; 6; 6; 5; 7; 6; 6; 5; 6; 5; 5; 4;
   8; 8; 8; 8; 8; 8; 8; 8; 8; 8; 8; 8; 8; 8; 8; 8; 8; 8; 8; 8; 8; 8; 8; 8; 8; 8; 8; 8; 8; 8; 8; 8; 8; 8; 8; 8; 8; 8; 8; 8; 8; 8; 8; 8; 8; 8; 8; 8; 8; 8; 8; 8; 8; 8; 8; 8; 8; 8; 8; 8; 8; 8; 8; 5;
   8; 8; 8; 8; 8; 8; 8; 8; 8; 8; 8; 8; 8; 8; 8; 8; 8; 8; 8; 8; 8; 8; 8; 8; 8; 8; 8; 8; 8; 8; 8; 6; 8; 8; 8; 8; 8; 8; 8; 8; 8; 8; 8; 8; 8; 8; 8; 6; 8; 8; 8; 8; 8; 8; 8; 6; 8; 8; 8; 6; 8; 6; 6; 5;
   8; 8; 8; 8; 8; 8; 8; 8; 8; 8; 8; 8; 8; 8; 8; 8; 8; 8; 8; 8; 8; 8; 8; 8; 8; 8; 8; 8; 8; 8; 8; 7; 8; 8; 8; 8; 8; 8; 8; 8; 8; 8; 8; 8; 8; 8; 8; 7; 8; 8; 8; 8; 8; 8; 8; 7; 8; 8; 8; 7; 8; 7; 7; 5;
   8; 8; 8; 8; 8; 8; 8; 8; 8; 8; 8; 8; 8; 8; 8; 7; 8; 8; 8; 8; 8; 8; 8; 7; 8; 8; 8; 7; 8; 7; 7; 6; 8; 8; 8; 8; 8; 8; 8; 7; 8; 8; 8; 7; 8; 7; 7; 6; 8; 8; 8; 7; 8; 7; 7; 6; 8; 7; 7; 6; 7; 6; 6; 5;
   8; 8; 8; 8; 8; 8; 8; 8; 8; 8; 8; 8; 8; 8; 8; 8; 8; 8; 8; 8; 8; 8; 8; 8; 8; 8; 8; 8; 8; 8; 8; 8; 8; 8; 8; 8; 8; 8; 8; 8; 8; 8; 8; 8; 8; 8; 8; 8; 8; 8; 8; 8; 8; 8; 8; 8; 8; 8; 8; 8; 8; 8; 8; 8;
   8; 8; 8; 8; 8; 8; 8; 8; 8; 8; 8; 8; 8; 8; 8; 8; 8; 8; 8; 8; 8; 8; 8; 8; 8; 8; 8; 8; 8; 8; 8; 8; 8; 8; 8; 8; 8; 8; 8; 8; 8; 8; 8; 8; 8; 8; 8; 8; 8; 8; 8; 8; 8; 8; 8; 8; 8; 8; 8; 8; 8; 8; 8; 6;
   8; 8; 8; 8; 8; 8; 8; 8; 8; 8; 8; 8; 8; 8; 8; 8; 8; 8; 8; 8; 8; 8; 8; 8; 8; 8; 8; 8; 8; 8; 8; 8; 8; 8; 8; 8; 8; 8; 8; 8; 8; 8; 8; 8; 8; 8; 8; 8; 8; 8; 8; 8; 8; 8; 8; 8; 8; 8; 8; 8; 8; 8; 8; 7;
   8; 8; 8; 8; 8; 8; 8; 8; 8; 8; 8; 8; 8; 8; 8; 8; 8; 8; 8; 8; 8; 8; 8; 8; 8; 8; 8; 8; 8; 8; 8; 7; 8; 8; 8; 8; 8; 8; 8; 8; 8; 8; 8; 8; 8; 8; 8; 7; 8; 8; 8; 8; 8; 8; 8; 7; 8; 8; 8; 7; 8; 7; 7; 6;
   8; 8; 8; 8; 8; 8; 8; 8; 8; 8; 8; 8; 8; 8; 8; 8; 8; 8; 8; 8; 8; 8; 8; 8; 8; 8; 8; 8; 8; 8; 8; 8; 8; 8; 8; 8; 8; 8; 8; 8; 8; 8; 8; 8; 8; 8; 8; 8; 8; 8; 8; 8; 8; 8; 8; 8; 8; 8; 8; 8; 8; 8; 8; 8;
   8; 8; 8; 8; 8; 8; 8; 8; 8; 8; 8; 8; 8; 8; 8; 8; 8; 8; 8; 8; 8; 8; 8; 8; 8; 8; 8; 8; 8; 8; 8; 8; 8; 8; 8; 8; 8; 8; 8; 8; 8; 8; 8; 8; 8; 8; 8; 8; 8; 8; 8; 8; 8; 8; 8; 8; 8; 8; 8; 8; 8; 8; 8; 8;
   8; 8; 8; 8; 8; 8; 8; 8; 8; 8; 8; 8; 8; 8; 8; 8; 8; 8; 8; 8; 8; 8; 8; 8; 8; 8; 8; 8; 8; 8; 8; 8; 8; 8; 8; 8; 8; 8; 8; 8; 8; 8; 8; 8; 8; 8; 8; 8; 8; 8; 8; 8; 8; 8; 8; 8; 8; 8; 8; 8; 8; 8; 8; 8;
   8; 8; 8; 8; 8; 8; 8; 8; 8; 8; 8; 8; 8; 8; 8; 8; 8; 8; 8; 8; 8; 8; 8; 8; 8; 8; 8; 8; 8; 8; 8; 8; 8; 8; 8; 8; 8; 8; 8; 8; 8; 8; 8; 8; 8; 8; 8; 8; 8; 8; 8; 8; 8; 8; 8; 8; 8; 8; 8; 8; 8; 8; 8; 7]%nat.

(** util.hpp:326-341 select_in_word, without USE_PDEP (with it: two machine instructions). *)
Definition select_in_word (x : N) (k : nat) : res nat :=
  let byte_sums := wmul (byte_counts x) ones_step_8 in
  let k_step_8 := wmul (N.of_nat k) ones_step_8 in
  let geq_k_step_8 := N.land (wsub (N.lor k_step_8 msbs_step_8) byte_sums) msbs_step_8 in
  let place := popcount geq_k_step_8 * 8 in
  do s <- shr (wrap (N.shiftl byte_sums 8)) place;
  let byte_rank := wsub (N.of_nat k) (N.land s 255) in
  do y <- shr x place;
  do v <- get select_in_byte (N.to_nat (N.lor (N.land y 255) (wrap (N.shiftl byte_rank 8))));
  Ok (place + v).

(** util.hpp:343-347 ceil_div. *)
Definition ceil_div (a d : nat) : nat := (a + d - 1) / d.
