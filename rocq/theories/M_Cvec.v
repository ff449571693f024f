(** Model of include/compact_vector.hpp. Simplification: i * m_width is computed without overflow. No proofs. *)
From Verif Require Import Base M_Word M_Bits.
Local Open Scope nat_scope.

(** ** compact_vector::builder, compact_vector.hpp:75-219 *)
(** m_size, m_width, m_mask, m_cur_block, m_cur_shift, m_bits; m_back is never read by the project (compact_vector.hpp:212-218). *)
Record cvb := { cb_size : nat; cb_width : nat; cb_mask : N; cb_block : nat; cb_shift : nat; cb_bits : list N }.

(** compact_vector.hpp:81-92: the mask is computed before the width is checked. *)
Definition cvb_new (n w : nat) : res cvb :=
  do mask <- mask_of w;
  if (w =? 0) || (64 <? w) then Exn
  else Ok {| cb_size := n; cb_width := w; cb_mask := mask; cb_block := 0; cb_shift := 0; cb_bits := repeat 0%N (words_for (n * w)) |}.
(** compact_vector.hpp:76-79 and 94-104: the default constructor followed by resize(n, w). *)
Definition cvb_new_resize (n w : nat) : res cvb :=
  if (w =? 0) || (64 <? w) then Exn
  else
    do mask <- mask_of w;
    Ok {| cb_size := n; cb_width := w; cb_mask := mask; cb_block := 0; cb_shift := 0; cb_bits := repeat 0%N (words_for (n * w)) |}.

(** compact_vector.hpp:123-142 set: on the words. *)
Definition cvb_set (b : cvb) (i : nat) (v : N) : res cvb :=
  let pos := i * cb_width b in
  let block := pos / 64 in
  let shift := pos mod 64 in
  do w <- get (cb_bits b) block;
  do m <- shl (cb_mask b) shift;
  do s <- shl v shift;
  do ws <- set (cb_bits b) block (N.lor (N.land w (wnot m)) s);
  let res_shift := 64 - shift in
  do ws <- (if res_shift <? cb_width b then
              do w <- get ws (block + 1);
              do m <- shr (cb_mask b) res_shift;
              do s <- shr v res_shift;
              set ws (block + 1) (N.lor (N.land w (wnot m)) s)
            else Ok ws);
  Ok {| cb_size := cb_size b; cb_width := cb_width b; cb_mask := cb_mask b; cb_block := cb_block b; cb_shift := cb_shift b; cb_bits := ws |}.

(** compact_vector.hpp:144-164 push_back. The signed m_cur_shift is -res_shift between compact_vector.hpp:155 and 158. *)
Definition cvb_push (b : cvb) (v : N) : res cvb :=
  do w <- get (cb_bits b) (cb_block b);
  do m <- shl (cb_mask b) (cb_shift b);
  do s <- shl v (cb_shift b);
  do ws <- set (cb_bits b) (cb_block b) (N.lor (N.land w (wnot m)) s);
  let res_shift := 64 - cb_shift b in
  do (ws, block, shift) <-
     (if res_shift <? cb_width b then
        do w <- get ws (cb_block b + 1);
        do m <- shr (cb_mask b) res_shift;
        do s <- shr v res_shift;
        do ws <- set ws (cb_block b + 1) (N.lor (N.land w (wnot m)) s);
        Ok (ws, cb_block b + 1, cb_width b - res_shift)
      else Ok (ws, cb_block b, cb_shift b + cb_width b));
  let '(block, shift) := if shift =? 64 then (block + 1, 0) else (block, shift) in
  Ok {| cb_size := cb_size b; cb_width := cb_width b; cb_mask := cb_mask b; cb_block := block; cb_shift := shift; cb_bits := ws |}.
(** compact_vector.hpp:112-121 fill: the width has been checked by the constructor. *)
Fixpoint cvb_fill (b : cvb) (l : list N) : res cvb :=
  match l with
  | [] => Ok b
  | v :: l' => do b <- cvb_push b v; cvb_fill b l'
  end.

(** ** compact_vector, compact_vector.hpp:221-325 *)
Record cvec := { cv_size : nat; cv_width : nat; cv_mask : N; cv_bits : list N }.
(** compact_vector.hpp:178-184 builder::build. *)
Definition cvb_build (b : cvb) : cvec := {| cv_size := cb_size b; cv_width := cb_width b; cv_mask := cb_mask b; cv_bits := cb_bits b |}.
(** compact_vector.hpp:233-238 build(begin, n, w). *)
Definition cv_build_width (l : list N) (w : nat) : res cvec := do b <- cvb_new (length l) w; do b <- cvb_fill b l; Ok (cvb_build b).
(** compact_vector.hpp:226-231 build(begin, n): max_element of an empty range is dereferenced; max + 1 wraps. *)
Definition cv_build (l : list N) : res cvec :=
  match l with
  | [] => UB
  | _ => do w <- ceil_log2_w (wadd (fold_right N.max 0%N l) 1); cv_build_width l w
  end.
(** compact_vector.hpp:240-249 operator[]. *)
Definition cv_at (v : cvec) (i : nat) : res N := read_bits (cv_bits v) (i * cv_width v) (cv_width v) (cv_mask v).
(** compact_vector.hpp:252-259 access: an unaligned 8-byte load; [tail]: see M_Bits. *)
Definition cv_access (v : cvec) (tail : N) (i : nat) : res N :=
  let pos := i * cv_width v in
  do w <- load64 (cv_bits v) tail (pos / 8);
  do s <- shr w (pos mod 8);
  Ok (N.land s (cv_mask v)).
(** The same with memory checks (compact_vector.hpp:252-259). *)
Definition cv_access_strict (v : cvec) (i : nat) : res N :=
  let pos := i * cv_width v in
  do w <- load64_strict (cv_bits v) (pos / 8);
  do s <- shr w (pos mod 8);
  Ok (N.land s (cv_mask v)).

(** ** enumerator, compact_vector.hpp:8-73 *)
Record cvenum := { e_i : nat; e_block : nat; e_shift : nat }.
(** compact_vector.hpp:12-17. *)
Definition e_new (v : cvec) (i : nat) : cvenum :=
  {| e_i := i; e_block := i * cv_width v / 64; e_shift := (i * cv_width v) mod 64 |}.
(** compact_vector.hpp:53-72 read; value() and operator* (19-22, 29-32) return m_cur_val afterwards. *)
Definition e_read (v : cvec) (e : cvenum) : res (N * cvenum) :=
  do w <- get (cv_bits v) (e_block e);
  do s <- shr w (e_shift e);
  do (val, block, shift) <-
     (if e_shift e + cv_width v <=? 64 then Ok (N.land s (cv_mask v), e_block e, e_shift e + cv_width v)
      else
        let res_shift := 64 - e_shift e in
        do w' <- get (cv_bits v) (e_block e + 1);
        do s' <- shl w' res_shift;
        Ok (N.lor s (N.land s' (cv_mask v)), e_block e + 1, cv_width v - res_shift));
  let '(block, shift) := if shift =? 64 then (block + 1, 0) else (block, shift) in
  Ok (val, {| e_i := e_i e; e_block := block; e_shift := shift |}).
(** compact_vector.hpp:24-27, 34-36 operator++ and next. *)
Definition e_next (e : cvenum) : cvenum := {| e_i := e_i e + 1; e_block := e_block e; e_shift := e_shift e |}.
(** A loop reading n values: *it, ++it (compact_vector.hpp:24-36: a sequence of calls). *)
Fixpoint e_take (v : cvec) (e : cvenum) (n : nat) : res (list N) :=
  match n with
  | 0 => Ok []
  | S n' => do (x, e) <- e_read v e; do xs <- e_take v (e_next e) n'; Ok (x :: xs)
  end.
