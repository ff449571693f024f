(** Model of the front-coded dictionaries:
    include/fc_dictionary.hpp (byte strings) and the parts that
    include/integer_fc_dictionary.hpp shares with it. No proofs.
    Strings are lists of bytes ([N] < 256); memory is a list of bytes. *)
From Verif Require Import Base M_Compare.
From Verif Require Export M_Bucket.

Section Bucket.
  Context {bucket : bucket_size}.

(** constants.hpp:5-8. *)
Definition MAX_CHARS : nat := 128.
(** fc_dictionary.hpp:163-168 bucket_size and 24-26 of the builder:
    number of strings in the last bucket after its header. *)
Definition fc_tail (size : nat) : nat :=
  let tail := size - (size / (BUCKET + 1)) * (BUCKET + 1) in
  if tail =? 0 then 0 else tail - 1.

(** fc_dictionary.hpp:22: std::ceil(double(m_size) / (BucketSize + 1));
    the floating-point division is exact enough for every size < 2^32. *)
Definition fc_num_buckets (size : nat) : nat := (size + BUCKET) / (BUCKET + 1).

(** fc_dictionary.hpp:51-55: length of the longest common prefix. *)
Fixpoint lcp (a b : list N) : nat :=
  match a, b with
  | x :: a', y :: b' => if (x =? y)%N then S (lcp a' b') else 0
  | _, _ => 0
  end.

(** The builder loop, fc_dictionary.hpp:41-60 (and integer_fc_dictionary.hpp:39-61).
    [wr prev curr] is what write(curr, l) appends to m_buckets, [wh] what
    write_header appends to m_headers; [wr] may fail (UB). [input] is what remains of the file; reading
    past its end is reported as UB (it cannot happen when num_terms is right). *)
Section Builder.
  Variable wr : list N -> list N -> res (list N).
  Variable wh : list N -> list N.

  (** inner loop, fc_dictionary.hpp:48-58. *)
  Fixpoint fc_write_bucket (k : nat) (prev : list N) (input : list (list N)) (mb : list N)
    : res (list N * list (list N)) :=
    match k with
    | O => Ok (mb, input)
    | S k' =>
        match input with
        | [] => UB
        | curr :: input' =>
            do e <- wr prev curr;
            fc_write_bucket k' curr input' (mb ++ e)
        end
    end.

  (** outer loop; [r] = number of buckets still to be written (fc_dictionary.hpp:41-60). *)
  Fixpoint fc_write_buckets (r tail : nat) (input : list (list N))
           (ph pb : list nat) (hd mb : list N) : res (list nat * list nat * list N * list N) :=
    match r with
    | O => Ok (ph, pb, hd, mb)
    | S r' =>
        match input with
        | [] => UB
        | header :: input' =>
            let hd' := hd ++ wh header in
            do (mb', input'') <- fc_write_bucket (if r' =? 0 then tail else BUCKET) header input' mb;
            fc_write_buckets r' tail input'' (ph ++ [length hd']) (pb ++ [length mb']) hd' mb'
        end
    end.
End Builder.

(** The data members, fc_dictionary.hpp:206-211. Pointers = uint_vec: plain
    vectors (the 32-bit range of the pointers is not modelled: data below 4 GiB). *)
Record fcd := Fcd {
  fc_size : nat;
  fc_ph : list nat;      (* m_pointers_to_headers *)
  fc_pb : list nat;      (* m_pointers_to_buckets *)
  fc_hdrs : list N;      (* m_headers *)
  fc_bkts : list N       (* m_buckets, bytes *)
}.

(** fc_dictionary.hpp:104-112 write(s, lcp): two length bytes and the suffix. *)
Definition fc_write (prev s : list N) : list N :=
  let l := lcp s prev in
  [ (N.of_nat l mod 256)%N; (N.of_nat (length s - l) mod 256)%N ] ++ skipn l s.

(** fc_dictionary.hpp:17-72 builder(params) for the vocabulary [terms]
    (the words of the .dict file), with params.num_terms = [length terms]. *)
Definition fc_build (terms : list (list N)) : res fcd :=
  let size := length terms in
  do (ph, pb, hd, mb) <-
     fc_write_buckets (fun prev s => Ok (fc_write prev s)) (fun h => h) (fc_num_buckets size) (fc_tail size) terms [0] [0] [] [];
  Ok (Fcd size ph pb hd (mb ++ repeat 0%N MAX_CHARS)).

(** fc_dictionary.hpp:170-172. *)
Definition fc_buckets (d : fcd) : nat := length (fc_ph d) - 1.

(** fc_dictionary.hpp:163-168. *)
Definition fc_bucket_size (d : fcd) (b : nat) : nat :=
  if negb (b =? fc_buckets d - 1) then BUCKET else fc_tail (fc_size d).

(** fc_dictionary.hpp:174-179 header(i). *)
Definition fc_header (d : fcd) (i : nat) : res (list N) :=
  do b <- get (fc_ph d) i;
  do e <- get (fc_ph d) (i + 1);
  slice (fc_hdrs d) b (e - b).

(** fc_dictionary.hpp:213-238 locate_bucket; integer_fc_dictionary.hpp:253-279 is
    the same code with the other comparison and a lower-bound hint.
    State (lo, hi, mi, cmp, h); result (is_header, h, bucket_id). *)
Definition locate_bucket_step (cmpf : list N -> list N -> Z) (header : nat -> res (list N)) (t : list N)
           (s : Z * Z * Z * Z * list N) : res ((Z * Z * Z * Z * list N) + (bool * list N * nat)) :=
  let '(lo, hi, mi, cmp, h) := s in
  if (lo <=? hi)%Z then
    let mi := ((lo + hi) / 2)%Z in
    do h <- header (Z.to_nat mi);
    let cmp := cmpf h t in
    if (cmp >? 0)%Z then Ok (inl (lo, mi - 1, mi, cmp, h)%Z)
    else if (cmp <? 0)%Z then Ok (inl (mi + 1, hi, mi, cmp, h)%Z)
    else Ok (inr (true, h, Z.to_nat mi))
  else if (cmp <? 0)%Z then Ok (inr (false, h, Z.to_nat mi))
  else
    let b := if (hi =? -1)%Z then 0 else Z.to_nat hi in
    do h <- header b;
    Ok (inr (false, h, b)).

(** As above: fc_dictionary.hpp:213-238, integer_fc_dictionary.hpp:253-279. *)
Definition locate_bucket (cmpf : list N -> list N -> Z) (header : nat -> res (list N)) (nb hint : nat)
           (t : list N) : res (bool * list N * nat) :=
  loop (nb + 2) (locate_bucket_step cmpf header t)
       (Z.of_nat hint, Z.of_nat nb - 1, 0, 0, [])%Z.

(** A binary search of the shape used in fc_dictionary.hpp:248-257, 284-293 and
    integer_fc_dictionary.hpp:286-295: [goleft cmp] says whether hi moves. *)
Definition bsearch_step (goleft : Z -> bool) (cmpf : list N -> Z) (header : nat -> res (list N))
           (s : Z * Z * Z * Z * list N) : res ((Z * Z * Z * Z * list N) + (Z * Z * Z * Z * list N)) :=
  let '(lo, hi, mi, cmp, h) := s in
  if (lo <=? hi)%Z then
    let mi := ((lo + hi) / 2)%Z in
    do h <- header (Z.to_nat mi);
    let cmp := cmpf h in
    if goleft cmp then Ok (inl (lo, mi - 1, mi, cmp, h)%Z)
    else Ok (inl (mi + 1, hi, mi, cmp, h)%Z)
  else Ok (inr s).

(** As above: fc_dictionary.hpp:248-257, 284-293, integer_fc_dictionary.hpp:286-295. *)
Definition bsearch (goleft : Z -> bool) (cmpf : list N -> Z) (header : nat -> res (list N))
           (nb : nat) (lo : Z) : res (Z * Z * Z * Z * list N) :=
  loop (nb + 2) (bsearch_step goleft cmpf header) (lo, Z.of_nat nb - 1, 0, 0, [])%Z.

(** fc_dictionary.hpp:240-300 locate_buckets(p). *)
Definition fc_locate_buckets (d : fcd) (p : list N) : res (nat * nat) :=
  let n := length p in
  let nb := fc_buckets d in
  do (lo, _, _, _, _) <-
     bsearch (fun cmp => (cmp >=? 0)%Z) (fun h => byte_range_compare_n h p n) (fc_header d) nb 0;
  if Z.to_nat lo =? nb then Ok (Z.to_nat (lo - 1), Z.to_nat (lo - 1))
  else
    do lft <- (if (lo =? 0)%Z then Ok 0%nat
                else
                  do h <- fc_header d (Z.to_nat lo);
                  Ok (if (byte_range_compare h p =? 0)%Z then Z.to_nat lo else Z.to_nat (lo - 1)));
    do one <- (if lft =? nb - 1 then Ok true
               else
                 do h <- fc_header d (lft + 1);
                 Ok (byte_range_compare_n h p n >? 0)%Z);
    if one : bool then Ok (lft, lft)
    else
      do (_, hi, _, _, _) <-
         bsearch (fun cmp => negb (cmp <=? 0)%Z) (fun h => byte_range_compare_n h p n) (fc_header d) nb (Z.of_nat lft);
      Ok (lft, Z.to_nat hi).

(** fc_dictionary.hpp:310-327 decode(in, out, lcp_len): [mem] is m_buckets, [cur]
    the cursor, [out] the destination memory and [base] the offset of the output
    pointer in it. Always copies MAX_CHARS bytes. Returns (length, lcp, out'). *)
Definition fc_decode (mem : list N) (cur : nat) (out : list N) (base : nat) : res (nat * nat * list N) :=
  do l <- get mem cur;
  do suffix_len <- get mem (cur + 1);
  do src <- slice mem (cur + 2) MAX_CHARS;
  do out' <- blit out (base + N.to_nat l) src;
  Ok (N.to_nat ((l + suffix_len) mod 256), N.to_nat l, out').

(** The loops over the strings of a bucket, for a given [decode] (cursor, output
    memory, offset of the output pointer) and a given number [w] of bytes per symbol
    (1 in fc_dictionary, sizeof(uint32_t) = 4 in integer_fc_dictionary). *)
Section BucketLoops.
  Variable decode : nat -> list N -> nat -> res (nat * nat * list N).
  Variable w : nat.

  (** fc_dictionary.hpp:337-340 and integer_fc_dictionary.hpp:331-334, the loop of
      extract: decode [id] strings. [curr += (string_len - lcp_len) * w + 2]: a
      negative step is reported as UB. *)
  Fixpoint fc_extract_loop (id : nat) (cur len : nat) (out : list N) (base : nat)
    : res (nat * list N) :=
    match id with
    | O => Ok (len, out)
    | S id' =>
        do (len', l, out') <- decode cur out base;
        if len' <? l then UB else
        fc_extract_loop id' (cur + (len' - l) * w + 2) len' out' base
    end.

  (** The loops of locate / left_locate / right_locate inside a bucket,
      fc_dictionary.hpp:344-378 and integer_fc_dictionary.hpp:338-375: [test i s]
      decides after string number [i] was decoded to [s]; [stop] is the outcome when
      all [n] strings were seen. [dec] is the static buffer [decoded]. *)
  Fixpoint fc_scan {R} (test : nat -> list N -> option R) (stop : res R)
           (n i cur : nat) (dec : list N) : res (R * list N) :=
    match n with
    | O => do r <- stop; Ok (r, dec)
    | S n' =>
        do (l, lcp_len, dec') <- decode cur dec 0;
        do s <- slice dec' 0 l;
        match test i s with
        | Some r => Ok (r, dec')
        | None =>
            if l <? lcp_len then UB else
            fc_scan test stop n' (i + 1) (cur + (l - lcp_len) * w + 2) dec'
        end
    end.

  (** fc_dictionary.hpp:329-342 and integer_fc_dictionary.hpp:323-336, the private
      extract(id, bucket_id, out): copy the header, then decode [k] strings.
      string_len is a uint8_t. *)
  Definition fc_extract_at (d : fcd) (bucket_id k : nat) (out : list N) (base : nat) : res (nat * list N) :=
    do h <- fc_header d bucket_id;
    do out' <- blit out base h;
    do cur <- get (fc_pb d) bucket_id;
    fc_extract_loop k cur (length h mod 256) out' base.

  (** FC_DICT_LOCATE_INIT, fc_dictionary.hpp:302-308, and INT_FC_DICT_LOCATE_INIT,
      integer_fc_dictionary.hpp:305-311, followed by a scan. *)
  Definition fc_scan_bucket {R} (d : fcd) (h : list N) (b : nat) (test : nat -> list N -> option R) (stop : nat -> res R)
             (dec : list N) : res (R * list N) :=
    do dec' <- blit dec 0 h;
    do cur <- get (fc_pb d) b;
    let n := fc_bucket_size d b in
    fc_scan test (stop n) n 1 cur dec'.
End BucketLoops.

(** fc_dictionary.hpp:151-157 extract(id, out) with 1-based ids; [out] at offset [base]. *)
Definition fc_extract (d : fcd) (id : nat) (out : list N) (base : nat) : res (nat * list N) :=
  match id with
  | O => UB (* assert(id > 0); id - 1 would wrap *)
  | S i => fc_extract_at (fc_decode (fc_bkts d)) 1 d (i / (BUCKET + 1)) (i mod (BUCKET + 1)) out base
  end.

(** fc_dictionary.hpp:344-354; None = invalid_term_id. *)
Definition fc_locate_in (d : fcd) (t h : list N) (b : nat) (dec : list N) : res (option nat * list N) :=
  fc_scan_bucket (fc_decode (fc_bkts d)) 1 d h b
    (fun i s => let cmp := byte_range_compare t s in
                if (cmp =? 0)%Z then Some (Some i) else if (cmp <? 0)%Z then Some None else None)
    (fun _ => Ok None) dec.

(** fc_dictionary.hpp:356-366. *)
Definition fc_left_locate (d : fcd) (p h : list N) (b : nat) (dec : list N) : res (nat * list N) :=
  fc_scan_bucket (fc_decode (fc_bkts d)) 1 d h b
    (fun i s => if (byte_range_compare_n s p (length p) =? 0)%Z then Some i else None)
    (fun n => Ok (n + 1)) dec.

(** fc_dictionary.hpp:368-378. *)
Definition fc_right_locate (d : fcd) (p h : list N) (b : nat) (dec : list N) : res (nat * list N) :=
  fc_scan_bucket (fc_decode (fc_bkts d)) 1 d h b
    (fun i s => if (byte_range_compare_n s p (length p) >? 0)%Z then Some (i - 1) else None)
    (fun n => Ok n) dec.

(** fc_dictionary.hpp:137-148 locate(t): Some id (1-based) or None (invalid_term_id). *)
Definition fc_locate (d : fcd) (t : list N) (dec : list N) : res (option nat * list N) :=
  do (is_header, h, b) <- locate_bucket byte_range_compare (fc_header d) (fc_buckets d) 0 t;
  let base_id := b * (BUCKET + 1) + 1 in
  if is_header : bool then Ok (Some base_id, dec)
  else
    do (off, dec') <- fc_locate_in d t h b dec;
    Ok (match off with None => None | Some o => Some (base_id + o) end, dec').

(** fc_dictionary.hpp:119-132 locate_prefix(p): inclusive 0-based range, None = invalid_range.
    [dl], [dr]: the static buffers of left_locate and right_locate. *)
Definition fc_locate_prefix (d : fcd) (p : list N) (dl dr : list N)
  : res (option (nat * nat) * list N * list N) :=
  if length p =? 0 then Ok (Some (0, fc_size d - 1), dl, dr)
  else
    do (bb, be) <- fc_locate_buckets d p;
    do h_begin <- fc_header d bb;
    do h_end <- fc_header d be;
    do (p_begin, dl') <-
       (if negb (byte_range_compare h_begin p =? 0)%Z then
          do (o, dl') <- fc_left_locate d p h_begin bb dl;
          Ok (bb * (BUCKET + 1) + o, dl')
        else Ok (bb * (BUCKET + 1), dl));
    do (o, dr') <- fc_right_locate d p h_end be dr;
    let p_end := be * (BUCKET + 1) + o in
    if p_end <? p_begin then Ok (None, dl', dr') else Ok (Some (p_begin, p_end), dl', dr').
End Bucket.
