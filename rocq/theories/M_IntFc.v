(** Model of include/integer_fc_dictionary.hpp: the front-coded dictionary of
    completions (sequences of uint32 token ids). No proofs.
    Completions are lists of [N]; the data record and the bucket loops are those of M_Fc. *)
From Verif Require Import Base M_Compare M_Fc.

Section Bucket.
  Context {bucket : bucket_size}.

(** constants.hpp: MAX_NUM_TERMS_PER_QUERY; global::invalid_term_id = id_type(-1);
    global::terminator = 0 (constants.hpp:6). *)
Definition MAX_TERMS : nat := 64.
(** fc_dictionary.hpp:144: global::invalid_term_id. *)
Definition INVALID_TERM_ID : N := 4294967295%N.

(** The little-endian bytes of an id_type in memory (the C++ reinterprets the
    vector's memory as bytes; little-endian hardware is assumed) (integer_fc_dictionary.hpp:112-123). *)
Definition le32 (x : N) : list N :=
  [ (x mod 256)%N; (x / 256 mod 256)%N; (x / 65536 mod 256)%N; (x / 16777216 mod 256)%N ].

(** The inverse reading of [n] uint32 from memory (integer_fc_dictionary.hpp:307, 318, 325). *)
Fixpoint words32 (n : nat) (bs : list N) : list N :=
  match n with
  | O => []
  | S n' =>
      match bs with
      | a :: b :: c :: d :: bs' => (a + 256 * (b + 256 * (c + 256 * d)))%N :: words32 n' bs'
      | _ => []
      end
  end.

(** integer_fc_dictionary.hpp:112-123 write(c, lcp), with the lcp computed by the
    builder (integer_fc_dictionary.hpp:52-56) on the terminated completions. If lcp > size the inserted
    range is reversed: UB. *)
Definition ifc_write (prev c : list N) : res (list N) :=
  let l := lcp c prev in
  let size := (length c - 1) mod 256 in
  if size <? l then UB
  else Ok ([ (N.of_nat l mod 256)%N; (N.of_nat (size - l) mod 256)%N ]
           ++ flat_map le32 (firstn (size - l) (skipn l c))).

(** integer_fc_dictionary.hpp:104-110 write_header(c): all but the terminator. *)
Definition ifc_write_header (c : list N) : list N := firstn (length c - 1) c.

(** integer_fc_dictionary.hpp:17-72 builder(params); [input] are the terminated
    completions of the .mapped file, params.num_completions = length input. *)
Definition ifc_build (input : list (list N)) : res fcd :=
  let size := length input in
  do (ph, pb, hd, mb) <-
     fc_write_buckets ifc_write ifc_write_header (fc_num_buckets size) (fc_tail size) input [0] [0] [] [];
  Ok (Fcd size ph pb hd (mb ++ repeat 0%N (MAX_TERMS * 4))).

(** integer_fc_dictionary.hpp:22, 38, 41, 51: the docid -> lexid map filled by the same
    builder loop: one assignment per record written, [docs] = doc ids in file order.
    None = id_type(-1). The number of records read is that of the builder's loops. *)
Fixpoint ifc_assign_lexids (docs : list nat) (lexid : nat) (m : list (option nat)) : res (list (option nat)) :=
  match docs with
  | [] => Ok m
  | doc :: docs' => do m' <- set m doc (Some lexid); ifc_assign_lexids docs' (S lexid) m'
  end.

(** As above: integer_fc_dictionary.hpp:22, 38, 41, 51. *)
Definition ifc_num_written (size : nat) : nat :=
  match fc_num_buckets size with
  | O => 0
  | S r => r * (BUCKET + 1) + 1 + fc_tail size
  end.

(** As above: integer_fc_dictionary.hpp:22, 38, 41, 51. *)
Definition ifc_docid_to_lexid (universe : nat) (docs : list nat) : res (list (option nat)) :=
  ifc_assign_lexids (firstn (ifc_num_written (length docs)) docs) 0 (repeat None universe).

(** integer_fc_dictionary.hpp:314-321 decode; [out] is an array of uint32. *)
Definition ifc_decode (mem : list N) (cur : nat) (out : list N) (base : nat) : res (nat * nat * list N) :=
  do l <- get mem cur;
  do suffix_len <- get mem (cur + 1);
  do src <- slice mem (cur + 2) (MAX_TERMS * 4);
  do out' <- blit out (base + N.to_nat l) (words32 MAX_TERMS src);
  Ok (N.to_nat ((l + suffix_len) mod 256), N.to_nat l, out').

(** integer_fc_dictionary.hpp:193-197 extract(id, c), 0-based ids. *)
Definition ifc_extract (d : fcd) (id : nat) (out : list N) : res (nat * list N) :=
  fc_extract_at (ifc_decode (fc_bkts d)) 4 d (id / (BUCKET + 1)) (id mod (BUCKET + 1)) out 0.

(** integer_fc_dictionary.hpp:338-349; the loop running out reaches
    __builtin_unreachable(). None = invalid_term_id. *)
Definition ifc_locate_in (d : fcd) (t h : list N) (b : nat) (dec : list N) : res (option nat * list N) :=
  fc_scan_bucket (ifc_decode (fc_bkts d)) 4 d h b
    (fun i s => let cmp := uint32_range_compare t s in
                if (cmp =? 0)%Z then Some (Some i) else if (cmp <? 0)%Z then Some None else None)
    (fun _ => UB) dec.

(** integer_fc_dictionary.hpp:351-362. *)
Definition ifc_right_locate (d : fcd) (p h : list N) (b : nat) (dec : list N) : res (nat * list N) :=
  fc_scan_bucket (ifc_decode (fc_bkts d)) 4 d h b
    (fun i s => if (uint32_range_compare_n s p (length p) >? 0)%Z then Some (i - 1) else None)
    (fun n => Ok n) dec.

(** integer_fc_dictionary.hpp:364-375. *)
Definition ifc_left_locate (d : fcd) (p h : list N) (b : nat) (dec : list N) : res (nat * list N) :=
  fc_scan_bucket (ifc_decode (fc_bkts d)) 4 d h b
    (fun i s => if (uint32_range_compare_n s p (length p) >=? 0)%Z then Some i else None)
    (fun n => Ok (n + 1)) dec.

(** integer_fc_dictionary.hpp:130-141 locate(c), 0-based ids. *)
Definition ifc_locate (d : fcd) (c : list N) (dec : list N) : res (option nat * list N) :=
  do (is_header, h, b) <- locate_bucket uint32_range_compare (fc_header d) (fc_buckets d) 0 c;
  let base_id := b * (BUCKET + 1) in
  if is_header : bool then Ok (Some base_id, dec)
  else
    do (o, dec') <- ifc_locate_in d c h b dec;
    Ok (match o with None => None | Some offset_id => Some (base_id + offset_id) end, dec').

(** integer_fc_dictionary.hpp:281-303 locate_right_bucket(t, h, bucket_id, hint). *)
Definition ifc_locate_right_bucket (d : fcd) (t : list N) (hint : nat) : res (list N * nat) :=
  do (_, hi, mi, cmp, h) <-
     bsearch (fun cmp => (cmp >? 0)%Z) (fun h => uint32_range_compare_n h t (length t))
             (fc_header d) (fc_buckets d) (Z.of_nat hint);
  if (cmp <? 0)%Z then Ok (h, Z.to_nat mi)
  else
    let b := if (hi =? -1)%Z then 0 else Z.to_nat hi in
    do h <- fc_header d b;
    Ok (h, b).

(** integer_fc_dictionary.hpp:146-189 locate_prefix(prefix, suffix_lex_range).
    [rb], [re] = suffix_lex_range.begin/end (uint64_t, stored as id_type by push_back).
    Result: (None = invalid_range | Some [a, b)), the vector [prefix] as the call leaves
    it, and the static buffers of left_locate and right_locate. *)
Definition ifc_locate_prefix (d : fcd) (prefix : list N) (rb re : N) (dl dr : list N)
  : res (option (nat * nat) * list N * list N * list N) :=
  let q := prefix ++ [(rb mod 4294967296)%N] in
  do (is_header_begin, h_begin, bucket_id_begin) <-
     locate_bucket uint32_range_compare (fc_header d) (fc_buckets d) 0 q;
  do (p_begin, dl') <-
     (if negb is_header_begin then
        do (o, dl') <- ifc_left_locate d q h_begin bucket_id_begin dl;
        Ok (bucket_id_begin * (BUCKET + 1) + o, dl')
      else Ok (bucket_id_begin * (BUCKET + 1), dl));
  let prefix1 := prefix ++ [(re mod 4294967296)%N] in
  let prefix2 := if (rb =? re)%N then prefix1 ++ [INVALID_TERM_ID] else prefix1 in
  do (h_end, bucket_id_end) <- ifc_locate_right_bucket d prefix2 bucket_id_begin;
  do (o, dr') <- ifc_right_locate d prefix2 h_end bucket_id_end dr;
  let p_end := bucket_id_end * (BUCKET + 1) + o in
  let prefix3 := removelast prefix2 in
  if p_end <? p_begin then Ok (None, prefix3, dl', dr')
  else
    let prefix4 := if (rb =? re)%N then removelast prefix3 else prefix3 in
    Ok (Some (p_begin, p_end + 1), prefix4, dl', dr').
End Bucket.
