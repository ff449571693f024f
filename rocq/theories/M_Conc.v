(** Model of two lookups running at the same time: the accesses of fc_dictionary.hpp and integer_fc_dictionary.hpp to the static arrays [decoded]
    (FC_DICT_LOCATE_INIT, INT_FC_DICT_LOCATE_INIT) one by one, and their interleavings. C++ calls any such race undefined behaviour; here every access is
    atomic and memory is sequentially consistent, which is the most favourable reading. No proofs. *)
From Verif Require Import Base M_Compare M_Fc M_IntFc.

(** A computation with accesses to shared arrays (numbered): Wr array position value, Rd array position. Everything else it reads is immutable or its own (fc_dictionary.hpp:302-308, integer_fc_dictionary.hpp:305-311: programs that use the static arrays). *)
Inductive prog (A : Type) :=
| Ret (r : res A)
| Wr (b off : nat) (x : N) (k : prog A)
| Rd (b off : nat) (k : N -> prog A).
Arguments Ret {A}. Arguments Wr {A}. Arguments Rd {A}.

(** one such program after the other, fc_dictionary.hpp:344-378. *)
Fixpoint pbind {A B} (p : prog A) (f : A -> prog B) : prog B :=
  match p with
  | Ret r => match r with Ok a => f a | Exn => Ret Exn | UB => Ret UB | Fuel => Ret Fuel end
  | Wr b off x k => Wr b off x (pbind k f)
  | Rd b off k => Rd b off (fun x => pbind (k x) f)
  end.

(** memcpy into an array; reading [n] elements of it (a comparison reads at most these) (fc_dictionary.hpp:304, 324; integer_fc_dictionary.hpp:307, 318). *)
Fixpoint wr_list {A} (b off : nat) (src : list N) (k : prog A) : prog A :=
  match src with [] => k | x :: src' => Wr b off x (wr_list b (off + 1) src' k) end.
(** util_types.hpp:150-196: the comparisons read decoded. *)
Fixpoint rd_list {A} (b off n : nat) (k : list N -> prog A) : prog A :=
  match n with 0 => k [] | S n' => Rd b off (fun x => rd_list b (off + 1) n' (fun s => k (x :: s))) end.

(** What decode (fc_dictionary.hpp:310-327, integer_fc_dictionary.hpp:314-321) reads from the immutable bucket: length, lcp, and the elements it copies to
    out + lcp. *)
Definition fc_entry (mem : list N) (cur : nat) : res (nat * nat * list N) :=
  do l <- get mem cur;
  do suffix_len <- get mem (cur + 1);
  do src <- slice mem (cur + 2) MAX_CHARS;
  Ok (N.to_nat ((l + suffix_len) mod 256), N.to_nat l, src).
(** As above: fc_dictionary.hpp:310-327, integer_fc_dictionary.hpp:314-321. *)
Definition ifc_entry (mem : list N) (cur : nat) : res (nat * nat * list N) :=
  do l <- get mem cur;
  do suffix_len <- get mem (cur + 1);
  do src <- slice mem (cur + 2) (MAX_TERMS * 4);
  Ok (N.to_nat ((l + suffix_len) mod 256), N.to_nat l, words32 MAX_TERMS src).

Section Loops.
  Variable entry : nat -> res (nat * nat * list N).
  Variable w : nat.
  Variable b : nat.   (* the array written to *)

  (** As M_Fc.fc_extract_loop and fc_scan, access by access (fc_dictionary.hpp:337-340). *)
  Fixpoint c_extract_loop (id cur len base : nat) : prog nat :=
    match id with
    | O => Ret (Ok len)
    | S id' =>
        pbind (Ret (entry cur)) (fun '(len', l, src) =>
          wr_list b (base + l) src
            (if len' <? l then Ret UB else c_extract_loop id' (cur + (len' - l) * w + 2) len' base))
    end.
  (** fc_dictionary.hpp:346-352, 359-364, 371-376. *)
  Fixpoint c_scan {R} (test : nat -> list N -> option R) (stop : res R) (n i cur : nat) : prog R :=
    match n with
    | O => Ret stop
    | S n' =>
        pbind (Ret (entry cur)) (fun '(l, lcp_len, src) =>
          wr_list b lcp_len src (rd_list b 0 l (fun s =>
            match test i s with
            | Some r => Ret (Ok r)
            | None => if l <? lcp_len then Ret UB else c_scan test stop n' (i + 1) (cur + (l - lcp_len) * w + 2)
            end)))
    end.
  (** fc_dictionary.hpp:329-342. *)
  Definition c_extract_at (d : fcd) (bucket_id k base : nat) : prog nat :=
    pbind (Ret (fc_header d bucket_id)) (fun h =>
      wr_list b base h (pbind (Ret (get (fc_pb d) bucket_id)) (fun cur => c_extract_loop k cur (length h mod 256) base))).
  (** fc_dictionary.hpp:302-308, 344-378. *)
  Definition c_scan_bucket {R} (d : fcd) (h : list N) (bu : nat) (test : nat -> list N -> option R) (stop : nat -> res R) : prog R :=
    wr_list b 0 h (pbind (Ret (get (fc_pb d) bu)) (fun cur =>
      let n := fc_bucket_size d bu in c_scan test (stop n) n 1 cur)).
End Loops.

(** The static arrays: one in each of locate, left_locate and right_locate of each of the two dictionary types (fc_dictionary.hpp:303, 345: the array of locate). *)
Definition B_locate : nat := 0.
(** fc_dictionary.hpp:303, 357: the array of left_locate. *)
Definition B_left : nat := 1.
(** fc_dictionary.hpp:303, 369: the array of right_locate. *)
Definition B_right : nat := 2.
(** integer_fc_dictionary.hpp:306, 339: the array of locate. *)
Definition B_ilocate : nat := 3.
(** integer_fc_dictionary.hpp:306, 366: the array of left_locate. *)
Definition B_ileft : nat := 4.
(** integer_fc_dictionary.hpp:306, 353: the array of right_locate. *)
Definition B_iright : nat := 5.

(** fc_dictionary.hpp:119-157: as M_Fc.fc_extract, fc_locate, fc_locate_prefix. extract writes to the caller's array [out]. *)
Definition c_extract (d : fcd) (id out base : nat) : prog nat :=
  match id with
  | O => Ret UB
  | S i => c_extract_at (fc_entry (fc_bkts d)) 1 out d (i / (BUCKET + 1)) (i mod (BUCKET + 1)) base
  end.
(** As above: fc_dictionary.hpp:119-157. *)
Definition c_locate_in (d : fcd) (t h : list N) (b : nat) : prog (option nat) :=
  c_scan_bucket (fc_entry (fc_bkts d)) 1 B_locate d h b
    (fun i s => let cmp := byte_range_compare t s in
                if (cmp =? 0)%Z then Some (Some i) else if (cmp <? 0)%Z then Some None else None)
    (fun _ => Ok None).
(** As above: fc_dictionary.hpp:119-157. *)
Definition c_left_locate (d : fcd) (p h : list N) (b : nat) : prog nat :=
  c_scan_bucket (fc_entry (fc_bkts d)) 1 B_left d h b
    (fun i s => if (byte_range_compare_n s p (length p) =? 0)%Z then Some i else None)
    (fun n => Ok (n + 1)).
(** As above: fc_dictionary.hpp:119-157. *)
Definition c_right_locate (d : fcd) (p h : list N) (b : nat) : prog nat :=
  c_scan_bucket (fc_entry (fc_bkts d)) 1 B_right d h b
    (fun i s => if (byte_range_compare_n s p (length p) >? 0)%Z then Some (i - 1) else None)
    (fun n => Ok n).
(** As above: fc_dictionary.hpp:119-157. *)
Definition c_locate (d : fcd) (t : list N) : prog (option nat) :=
  pbind (Ret (locate_bucket byte_range_compare (fc_header d) (fc_buckets d) 0 t)) (fun '(is_header, h, b) =>
  let base_id := b * (BUCKET + 1) + 1 in
  if is_header : bool then Ret (Ok (Some base_id))
  else pbind (c_locate_in d t h b) (fun off => Ret (Ok (match off with None => None | Some o => Some (base_id + o) end)))).
(** As above: fc_dictionary.hpp:119-157. *)
Definition c_locate_prefix (d : fcd) (p : list N) : prog (option (nat * nat)) :=
  if length p =? 0 then Ret (Ok (Some (0, fc_size d - 1)))
  else
    pbind (Ret (fc_locate_buckets d p)) (fun '(bb, be) =>
    pbind (Ret (fc_header d bb)) (fun h_begin =>
    pbind (Ret (fc_header d be)) (fun h_end =>
    pbind (if negb (byte_range_compare h_begin p =? 0)%Z then
             pbind (c_left_locate d p h_begin bb) (fun o => Ret (Ok (bb * (BUCKET + 1) + o)))
           else Ret (Ok (bb * (BUCKET + 1)))) (fun p_begin =>
    pbind (c_right_locate d p h_end be) (fun o =>
    let p_end := be * (BUCKET + 1) + o in
    Ret (Ok (if p_end <? p_begin then None else Some (p_begin, p_end)))))))).

(** integer_fc_dictionary.hpp:130-197: as M_IntFc.ifc_extract, ifc_locate, ifc_locate_prefix (the vector [prefix] belongs to the caller; its final
    value is left out). *)
Definition c_iextract (d : fcd) (id out : nat) : prog nat :=
  c_extract_at (ifc_entry (fc_bkts d)) 4 out d (id / (BUCKET + 1)) (id mod (BUCKET + 1)) 0.
(** As above: integer_fc_dictionary.hpp:130-197. *)
Definition c_ilocate_in (d : fcd) (t h : list N) (b : nat) : prog (option nat) :=
  c_scan_bucket (ifc_entry (fc_bkts d)) 4 B_ilocate d h b
    (fun i s => let cmp := uint32_range_compare t s in
                if (cmp =? 0)%Z then Some (Some i) else if (cmp <? 0)%Z then Some None else None)
    (fun _ => UB).
(** As above: integer_fc_dictionary.hpp:130-197. *)
Definition c_iright_locate (d : fcd) (p h : list N) (b : nat) : prog nat :=
  c_scan_bucket (ifc_entry (fc_bkts d)) 4 B_iright d h b
    (fun i s => if (uint32_range_compare_n s p (length p) >? 0)%Z then Some (i - 1) else None)
    (fun n => Ok n).
(** As above: integer_fc_dictionary.hpp:130-197. *)
Definition c_ileft_locate (d : fcd) (p h : list N) (b : nat) : prog nat :=
  c_scan_bucket (ifc_entry (fc_bkts d)) 4 B_ileft d h b
    (fun i s => if (uint32_range_compare_n s p (length p) >=? 0)%Z then Some i else None)
    (fun n => Ok (n + 1)).
(** As above: integer_fc_dictionary.hpp:130-197. *)
Definition c_ilocate (d : fcd) (c : list N) : prog (option nat) :=
  pbind (Ret (locate_bucket uint32_range_compare (fc_header d) (fc_buckets d) 0 c)) (fun '(is_header, h, b) =>
  let base_id := b * (BUCKET + 1) in
  if is_header : bool then Ret (Ok (Some base_id))
  else pbind (c_ilocate_in d c h b) (fun o => Ret (Ok (match o with None => None | Some offset_id => Some (base_id + offset_id) end)))).
(** As above: integer_fc_dictionary.hpp:130-197. *)
Definition c_ilocate_prefix (d : fcd) (prefix : list N) (rb re : N) : prog (option (nat * nat)) :=
  let q := prefix ++ [(rb mod 4294967296)%N] in
  pbind (Ret (locate_bucket uint32_range_compare (fc_header d) (fc_buckets d) 0 q)) (fun '(is_header_begin, h_begin, bucket_id_begin) =>
  pbind (if negb is_header_begin then
           pbind (c_ileft_locate d q h_begin bucket_id_begin) (fun o => Ret (Ok (bucket_id_begin * (BUCKET + 1) + o)))
         else Ret (Ok (bucket_id_begin * (BUCKET + 1)))) (fun p_begin =>
  let prefix1 := prefix ++ [(re mod 4294967296)%N] in
  let prefix2 := if (rb =? re)%N then prefix1 ++ [INVALID_TERM_ID] else prefix1 in
  pbind (Ret (ifc_locate_right_bucket d prefix2 bucket_id_begin)) (fun '(h_end, bucket_id_end) =>
  pbind (c_iright_locate d prefix2 h_end bucket_id_end) (fun o =>
  let p_end := bucket_id_end * (BUCKET + 1) + o in
  Ret (Ok (if p_end <? p_begin then None else Some (p_begin, p_end + 1))))))).

(** The arrays, and one step of a computation: an access outside an array is undefined behaviour (fc_dictionary.hpp:303, integer_fc_dictionary.hpp:306: the static arrays). *)
Definition memory := list (list N).
(** fc_dictionary.hpp:303, integer_fc_dictionary.hpp:306. *)
Definition arr (m : memory) (b : nat) : list N := nth b m [].
(** an access to an array of fc_dictionary.hpp:303, integer_fc_dictionary.hpp:306. *)
Definition astep {A} (m : memory) (p : prog A) : option (memory * prog A) :=
  match p with
  | Ret _ => None
  | Wr b off x k => Some (if off <? length (arr m b) then (upd m b (upd (arr m b) off x), k) else (m, Ret UB))
  | Rd b off k => Some (match nth_error (arr m b) off with Some x => (m, k x) | None => (m, Ret UB) end)
  end.

(** Running alone (the threads are a caller's; they share the arrays of fc_dictionary.hpp:303, integer_fc_dictionary.hpp:306). *)
Fixpoint alone {A} (m : memory) (p : prog A) : res (A * memory) :=
  match p with
  | Ret r => do a <- r; Ok (a, m)
  | Wr b off x k => if off <? length (arr m b) then alone (upd m b (upd (arr m b) off x)) k else UB
  | Rd b off k => match nth_error (arr m b) off with Some x => alone m (k x) | None => UB end
  end.

(** Two computations interleaved, in any order, until both have returned (the threads are a caller's; they share the arrays of fc_dictionary.hpp:303, integer_fc_dictionary.hpp:306). *)
Inductive together {A B} : memory -> prog A -> prog B -> res A -> res B -> Prop :=
| tg_done m a b : together m (Ret a) (Ret b) a b
| tg_left m p q m' p' a b : astep m p = Some (m', p') -> together m' p' q a b -> together m p q a b
| tg_right m p q m' q' a b : astep m q = Some (m', q') -> together m' p q' a b -> together m p q a b.

(** The interleaving given by a schedule: [n] steps of the first (true) or second (false) computation, for each entry (the threads are a caller's; they share the arrays of fc_dictionary.hpp:303, integer_fc_dictionary.hpp:306). *)
Fixpoint steps {A} (n : nat) (m : memory) (p : prog A) : memory * prog A :=
  match n with
  | 0 => (m, p)
  | S n => match astep m p with None => (m, p) | Some (m', p') => steps n m' p' end
  end.
(** the threads are a caller's; they share the arrays of fc_dictionary.hpp:303, integer_fc_dictionary.hpp:306. *)
Fixpoint schedule {A B} (s : list (bool * nat)) (m : memory) (p : prog A) (q : prog B) : memory * prog A * prog B :=
  match s with
  | [] => (m, p, q)
  | (true, n) :: s => let '(m, p) := steps n m p in schedule s m p q
  | (false, n) :: s => let '(m, q) := steps n m q in schedule s m p q
  end.

(** The public lookups of an index's two dictionaries [d] (terms) and [dc] (completions); [out]: the array the calling thread extracts to (fc_dictionary.hpp:119-157, integer_fc_dictionary.hpp:130-197). *)
Inductive lookup :=
| Locate (t : list N) | LocatePrefix (p : list N) | Extract (id : nat)
| CLocate (c : list N) | CLocatePrefix (prefix : list N) (a b : N) | CExtract (id : nat).
(** the results of fc_dictionary.hpp:119-157, integer_fc_dictionary.hpp:130-197. *)
Inductive reply := RId (r : option nat) | RRange (r : option (nat * nat)) | RText (s : list N).
(** fc_dictionary.hpp:119-157, integer_fc_dictionary.hpp:130-197. *)
Definition run (d dc : fcd) (out : nat) (l : lookup) : prog reply :=
  match l with
  | Locate t => pbind (c_locate d t) (fun r => Ret (Ok (RId r)))
  | LocatePrefix p => pbind (c_locate_prefix d p) (fun r => Ret (Ok (RRange r)))
  | Extract id => pbind (c_extract d id out 0) (fun n => rd_list out 0 n (fun s => Ret (Ok (RText s))))
  | CLocate c => pbind (c_ilocate dc c) (fun r => Ret (Ok (RId r)))
  | CLocatePrefix prefix a b => pbind (c_ilocate_prefix dc prefix a b) (fun r => Ret (Ok (RRange r)))
  | CExtract id => pbind (c_iextract dc id out) (fun n => rd_list out 0 n (fun s => Ret (Ok (RText s))))
  end.
(** The static arrays (256 bytes, 128 ids) and the output arrays of the two threads (fc_dictionary.hpp:151-157: the caller's array). *)
Definition OUT1 : nat := 6.
(** fc_dictionary.hpp:151-157: the other caller's array. *)
Definition OUT2 : nat := 7.

(** Any number of threads, each making lookups one after the other, with an output array of its own (the threads are a caller's; they share the arrays of fc_dictionary.hpp:303, integer_fc_dictionary.hpp:306). *)
Fixpoint run_all (d dc : fcd) (out : nat) (ls : list lookup) : prog (list reply) :=
  match ls with
  | [] => Ret (Ok [])
  | l :: ls => pbind (run d dc out l) (fun r => pbind (run_all d dc out ls) (fun rs => Ret (Ok (r :: rs))))
  end.
(** the threads are a caller's; they share the arrays of fc_dictionary.hpp:303, integer_fc_dictionary.hpp:306. *)
Fixpoint threads (d dc : fcd) (out : nat) (ts : list (list lookup)) : list (prog (list reply)) :=
  match ts with [] => [] | ls :: ts => run_all d dc out ls :: threads d dc (out + 1) ts end.
(** The threads interleaved, in any order, for some steps; until all have returned (the threads are a caller's; they share the arrays of fc_dictionary.hpp:303, integer_fc_dictionary.hpp:306). *)
Inductive reach {A} : memory -> list (prog A) -> memory -> list (prog A) -> Prop :=
| re_here m ps : reach m ps m ps
| re_step m ps i p m' p' m'' ps'' : nth_error ps i = Some p -> astep m p = Some (m', p') -> reach m' (upd ps i p') m'' ps'' -> reach m ps m'' ps''.
(** the threads are a caller's; they share the arrays of fc_dictionary.hpp:303, integer_fc_dictionary.hpp:306. *)
Definition interleaved {A} (m : memory) (ps : list (prog A)) (rs : list (res A)) : Prop := exists m', reach m ps m' (map Ret rs).
(** The next access of a thread: array, position, and whether it writes. Two threads race if their next accesses are to the same element and one writes (the threads are a caller's; they share the arrays of fc_dictionary.hpp:303, integer_fc_dictionary.hpp:306). *)
Definition next {A} (p : prog A) : option (nat * nat * bool) :=
  match p with Ret _ => None | Wr b off _ _ => Some (b, off, true) | Rd b off _ => Some (b, off, false) end.
(** the threads are a caller's; they share the arrays of fc_dictionary.hpp:303, integer_fc_dictionary.hpp:306. *)
Definition racing {A} (ps : list (prog A)) : Prop :=
  exists i j p q b off w1 w2, i <> j /\ nth_error ps i = Some p /\ nth_error ps j = Some q /\ next p = Some (b, off, w1) /\ next q = Some (b, off, w2) /\
    (w1 = true \/ w2 = true).
