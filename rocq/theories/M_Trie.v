(** Model of include/completion_trie.hpp. No proofs.
    Completions (terminated by 0) are lists of [N]; positions, pointers and extremes are [nat].
    The containers Nodes, Pointers, LeftExtremes, Sizes (ef_sequence in types.hpp) are given by their
    observable operations [seqc]; an array of the builder is handed over as list of [N]. *)
From Verif Require Import Base M_Find.

(** for (i = lo; i != lo + n; ++i) st = f(i, st) (the loops of completion_trie.hpp:54-109). *)
Fixpoint for_range {St} (n i : nat) (f : nat -> St -> res St) (st : St) {struct n} : res St :=
  match n with
  | O => Ok st
  | S n' => do st' <- f i st; for_range n' (i + 1) f st'
  end.

(** v[i].push_back(x) (completion_trie.hpp:54-78). *)
Definition push_at {A} (v : list (list A)) (i : nat) (x : A) : res (list (list A)) :=
  do l <- get v i; set v i (l ++ [x]).

(** v.back() (completion_trie.hpp:54-78). *)
Definition back {A} (v : list A) : res A := match v with [] => UB | _ => get v (length v - 1) end.

(** completion_trie.hpp:52 the loop computing |lcp(curr,prev)|; curr_s, prev_s exclude the last token. *)
Fixpoint trie_lcp (curr_s prev_s : nat) (curr prev : list N) : nat :=
  match curr_s, prev_s, curr, prev with
  | S cs, S ps, x :: curr', y :: prev' => if (x =? y)%N then S (trie_lcp cs ps curr' prev') else 0
  | _, _, _, _ => 0
  end.

(** Members of the builder (completion_trie.hpp:157-163) and its local variables (34-41). *)
Record tb := {
  tb_nodes : list (list N);
  tb_ptrs : list (list nat);
  tb_left : list (list nat);
  tb_sizes : list (list nat);
  tb_docs : list nat;
  tb_offs : list nat;
  tb_prev : list N;
  tb_begin : nat;
  tb_end : nat
}.

(** completion_trie.hpp:14-41. *)
Definition tb_init (levels : nat) : tb := {|
  tb_nodes := repeat [] levels;
  tb_ptrs := repeat [0] (levels - 1);
  tb_left := repeat [] levels;
  tb_sizes := repeat [] levels;
  tb_docs := [];
  tb_offs := repeat 0 (levels - 1);
  tb_prev := [0%N];
  tb_begin := 0; tb_end := 0 |}.

(** completion_trie.hpp:54-59: one iteration of the pointer loop; state (pointers, offsets). *)
Definition tb_close (i : nat) (s : list (list nat) * list nat) : res (list (list nat) * list nat) :=
  let '(ptrs, offs) := s in
  do p <- get ptrs i;
  do last <- back p;
  do off <- get offs i;
  do ptrs <- push_at ptrs i (last + off);
  do offs <- set offs i 0;
  Ok (ptrs, offs).

(** completion_trie.hpp:44-78: one record (doc id, terminated completion). *)
Definition tb_add (levels : nat) (st : tb) (rec : nat * list N) : res tb :=
  let '(doc, curr) := rec in
  let prev_s := length (tb_prev st) - 1 in
  let curr_s := length curr - 1 in
  let l := trie_lcp curr_s prev_s curr (tb_prev st) in
  (* 55-60 *)
  let n := if 0 <? prev_s then Nat.min (levels - 1) (prev_s + 1) - l else 0 in
  do (ptrs, offs) <- for_range n l tb_close (tb_ptrs st, tb_offs st);
  (* 62-65 *)
  let one := if 0 <? l then 1 else 0 in
  do offs <- for_range (curr_s + one - l) l
       (fun i offs => do x <- get offs (i - one); set offs (i - one) (x + 1)) offs;
  (* 67-69; r.end - 1 is an unsigned subtraction, r.end > 0 here *)
  let n := if 0 <? prev_s then prev_s + 1 - l else 0 in
  do sizes <- for_range n l (fun i sz => push_at sz i (tb_end st - 1)) (tb_sizes st);
  (* 71-74 *)
  do (nodes, left_) <- for_range (curr_s + 1 - l) l
       (fun i s => do c <- get curr i;
                   do nd <- push_at (fst s) i c;
                   do le <- push_at (snd s) i (tb_begin st);
                   Ok (nd, le)) (tb_nodes st, tb_left st);
  Ok {| tb_nodes := nodes; tb_ptrs := ptrs; tb_left := left_; tb_sizes := sizes;
        tb_docs := tb_docs st ++ [doc]; tb_offs := offs; tb_prev := curr;
        tb_begin := tb_begin st + 1; tb_end := tb_end st + 1 |}.

(** completion_trie.hpp:70-73. *)
Fixpoint tb_adds (levels : nat) (st : tb) (recs : list (nat * list N)) : res tb :=
  match recs with
  | [] => Ok st
  | r :: recs' => do st' <- tb_add levels st r; tb_adds levels st' recs'
  end.

(** completion_trie.hpp:91-101: lengths minus one, prefix summed. *)
Fixpoint size_sums (begins ends : list nat) (sum : nat) : res (list nat) :=
  match ends with
  | [] => Ok []
  | e :: ends' =>
      match begins with
      | [] => UB
      | b :: begins' =>
          let s := e - b + sum in
          do rest <- size_sums begins' ends' s; Ok (s :: rest)
      end
  end.

(** completion_trie.hpp:103-111: subtract k from the k-th begin. *)
Fixpoint sub_index (k : nat) (v : list nat) : list nat :=
  match v with [] => [] | x :: v' => (x - k) :: sub_index (S k) v' end.

(** As above: completion_trie.hpp:103-111. *)
Fixpoint map_res {A B} (f : A -> res B) (l : list A) : res (list B) :=
  match l with [] => Ok [] | x :: l' => do y <- f x; do ys <- map_res f l'; Ok (y :: ys) end.

(** The arrays handed to the containers (completion_trie.hpp:129-151). *)
Record trie_arrays := {
  ta_nodes : list (list N);
  ta_ptrs : list (list nat);
  ta_left : list (list nat);
  ta_sizes : list (list nat);
  ta_docs : list nat
}.

(** completion_trie.hpp:14-114 builder(params), then 129-151 build() up to the containers' own
    build functions; in-range prefix sums of the nodes: M_Find.build_range_sums. *)
Definition trie_build (levels : nat) (recs : list (nat * list N)) : res trie_arrays :=
  if levels =? 0 then UB else
  do st <- tb_adds levels (tb_init levels) recs;
  (* 85-87 *)
  do sizes <- for_range (length (tb_prev st)) 0 (fun i sz => push_at sz i (tb_end st - 1)) (tb_sizes st);
  (* 89-91 *)
  do ptrs <- for_range (levels - 1) 0
       (fun i ps => do nd <- get (tb_nodes st) (i + 1); push_at ps i (length nd)) (tb_ptrs st);
  (* 95-103, 109-113 *)
  do sums <- map_res (fun be => size_sums (fst be) (snd be) 0) (combine (tb_left st) sizes);
  let left_ := map (sub_index 0) (tb_left st) in
  (* 139-150 *)
  do nodes0 <- get (tb_nodes st) 0;
  do nodes <- map_res (fun np => build_range_sums (fst np) (snd np)) (combine (skipn 1 (tb_nodes st)) ptrs);
  Ok {| ta_nodes := nodes0 :: nodes; ta_ptrs := ptrs; ta_left := left_; ta_sizes := sums;
        ta_docs := tb_docs st |}.

(** A container: size(), access(i), iterator at(lo) after j increments (completion_trie.hpp:272-276, types.hpp:22-24). *)
Record seqc := { q_size : nat; q_acc : nat -> res N; q_itr : nat -> nat -> res N }.

(** completion_trie.hpp:271-276. *)
Record trie := {
  tr_nodes : list seqc;
  tr_ptrs : list seqc;
  tr_left : list seqc;
  tr_sizes : list seqc
}.

(** access as an index or extreme (completion_trie.hpp:166-260). *)
Definition acc_nat (q : seqc) (i : nat) : res nat := do v <- q_acc q i; Ok (N.to_nat v).

(** completion_trie.hpp:177-181 (and 207-211). [pointer] = (pb, pe). The recursion is on the rest of
    the prefix; None = not_found. *)
Fixpoint trie_descend (t : trie) (prefix : list N) (i pb pe : nat) : res (option (nat * nat * nat)) :=
  match prefix with
  | [] => Ok (Some (i, pb, pe))
  | x :: prefix' =>
      do nd <- get (tr_nodes t) i;
      do pos <- seq_find (q_acc nd) (q_itr nd) pb pe x;
      match pos with
      | None => Ok None
      | Some pos =>
          do p <- get (tr_ptrs t) i;
          (* ef_sequence.hpp:168-170 operator[] *)
          do b <- acc_nat p pos;
          do e <- acc_nat p (pos + 1);
          trie_descend t prefix' (i + 1) b e
      end
  end.

(** completion_trie.hpp:171-200 locate_prefix; None = invalid_range. [a..b] = suffix_lex_range. *)
Definition trie_locate_prefix (t : trie) (prefix : list N) (a b : N) : res (option (nat * nat)) :=
  do front <- get (tr_nodes t) 0;
  do d <- trie_descend t prefix 0 0 (q_size front);
  match d with
  | None => Ok None
  | Some (i, pb, pe) =>
      if i <? length (tr_nodes t) then
        do nd <- get (tr_nodes t) i;
        do (qb, qe) <- ef_find_range (q_acc nd) (q_itr nd) pb pe a b;
        if qb =? qe then Ok None
        else
          let en := qe - 1 in
          do le <- get (tr_left t) i;
          do sz <- get (tr_sizes t) i;
          do x <- acc_nat le qb;
          let r_begin := x + qb in
          do r_end <- (if negb (en =? qb) then do y <- acc_nat le en; Ok (y + en) else Ok r_begin);
          do s1 <- acc_nat sz en;
          do s0 <- (if en =? 0 then Ok 0 else acc_nat sz (en - 1));
          Ok (Some (r_begin, r_end + (s1 - s0 + 1)))
      else Ok None
  end.

(** completion_trie.hpp:203-213 is_member. *)
Fixpoint trie_member (t : trie) (c : list N) (i pb pe : nat) : res bool :=
  match c with
  | [] => Ok true
  | x :: c' =>
      do nd <- get (tr_nodes t) i;
      do pos <- seq_find (q_acc nd) (q_itr nd) pb pe x;
      match pos with
      | None => Ok false
      | Some pos =>
          match c' with
          | [] => Ok true
          | _ =>
              do p <- get (tr_ptrs t) i;
              do b <- acc_nat p pos;
              do e <- acc_nat p (pos + 1);
              trie_member t c' (i + 1) b e
          end
      end
  end.
(** As above: completion_trie.hpp:203-213. *)
Definition trie_is_member (t : trie) (c : list N) : res bool :=
  match c with
  | [] => UB (* c.size() - 1 wraps *)
  | _ => do front <- get (tr_nodes t) 0; trie_member t c 0 0 (q_size front)
  end.
