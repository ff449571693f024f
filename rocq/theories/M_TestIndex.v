(** Model of the test programs test/test_inverted_index.cpp and test_compact_forward_index.cpp. As in M_Tests, [Ok true]: the test passes; [Ok false]: a REQUIRE
    fails. Where a test reads a list of numbers from a file and compares number by number, the model reads the whole list first. No proofs. *)
From Verif Require Import Base M_Iter M_Intersect M_Containers M_CompactEf M_InvIndex M_EfSeq M_Input M_Save M_Stored M_Tests.
Local Open Scope nat_scope.

(** ** test_inverted_index.cpp *)
(** The REQUIREs on num_docs() and num_terms() (test_inverted_index.cpp:17-18, 25-26, 60-61, 68-69). *)
Definition inv_sizes (d : inv_d) (p : params) : bool := (N.of_nat (vd_docs d) =? pa_universe p)%N && (N.of_nat (ef_size (vd_ptrs d)) =? pa_terms p)%N.
(** test_inverted_index.cpp:5-28, 51-69: build, save, load ([old]: what is in the object before); None: a REQUIRE fails. *)
Definition test_inv_index (old : inv_d) (junk : N) (t : texts) (p : params) : res (option inv_d) :=
  do d <- inv_build_d (N.to_nat (pa_universe p)) (map (map N.to_nat) (snd (read_lists (N.to_nat (pa_terms p)) (open_file (t_inverted t)) junk)));
  if inv_sizes d p then
    do d <- load_file visit_inv old (save_file visit_inv d);
    if inv_sizes d p then Ok (Some d) else Ok None
  else Ok None.
(** test_inverted_index.cpp:38-44: *it and ++it along the list. *)
Fixpoint same_list (it : ceit) (l : list N) : res bool :=
  match l with
  | [] => Ok true
  | x :: l' => if (c_val it =? x)%N then do it <- c_next it; same_list it l' else Ok false
  end.
(** test_inverted_index.cpp:31-45: one list. *)
Definition check_list (tail : N) (d : inv_d) (x : nat * list N) : res bool :=
  do it <- inv_of tail d (fst x);
  if length (snd x) =? c_size it then same_list it (snd x) else Ok false.
(** test_inverted_index.cpp:7-49. *)
Definition test_inv (tail : N) (old : inv_d) (junk : N) (t : texts) : res bool :=
  do p <- M_Input.load (t_stats t);
  do o <- test_inv_index old junk t p;
  match o with
  | None => Ok false
  | Some d =>
      let n := ef_size (vd_ptrs d) in
      do (b, _) <- all_pass (fun x (s : unit) => do b <- check_list tail d x; Ok (b, s)) (combine (seq 0 n) (snd (read_lists n (open_file (t_inverted t)) junk))) tt;
      Ok b
  end.

(** it.access(i) for all i (test_inverted_index.cpp:88-90, 96-98, 111-113). *)
Fixpoint access_all (it : ceit) (i n : nat) : res (list N) :=
  match n with
  | 0 => Ok []
  | S n => do it <- c_access it i; do l <- access_all it (i + 1) n; Ok (c_val it :: l)
  end.
(** The list of a term, copied to a vector of num_docs elements (test_inverted_index.cpp:85-91, 93-99, 109-113). *)
Definition list_of (tail : N) (d : inv_d) (id : nat) : res (list N) :=
  match id with
  | 0 => UB
  | S i => do it <- inv_of tail d i; if vd_docs d <? c_size it then UB else access_all it 0 (c_size it)
  end.
(** std::set_intersection (test_inverted_index.cpp:101-103, 114-116). *)
Fixpoint set_intersection (a : list N) : list N -> list N :=
  match a with
  | [] => fun _ => []
  | x :: a' =>
      fix go b := match b with
                  | [] => []
                  | y :: b' => if (x <? y)%N then set_intersection a' (y :: b') else if (y <? x)%N then go b' else x :: set_intersection a' b'
                  end
  end.
(** test_inverted_index.cpp:108-119: the remaining terms. *)
Fixpoint intersect_all (tail : N) (d : inv_d) (first : list N) (ids : list nat) : res (list N) :=
  match ids with
  | [] => Ok first
  | id :: ids' => do second <- list_of tail d id; intersect_all tail d (set_intersection first second) ids'
  end.
(** test_inverted_index.cpp:82-119: the intersection of all lists; at least two. *)
Definition reference (tail : N) (d : inv_d) (q : list nat) : res (list N) :=
  match q with
  | id1 :: id2 :: ids => do first <- list_of tail d id1; do second <- list_of tail d id2; intersect_all tail d (set_intersection first second) ids
  | _ => UB
  end.
(** test_inverted_index.cpp:121-131: the results one by one, and their number. (If there are more results than expected, the test compares them with what is left
    in the vector and fails at the latest when it compares the numbers.) *)
Fixpoint same_stream {St} (ops : stream_ops St) (x : St) (l : list N) : res bool :=
  match l with
  | [] => Ok (negb (s_has_next ops x))
  | v :: l' =>
      if s_has_next ops x then
        if (N.of_nat (s_deref ops x) =? v)%N then do x <- s_next ops x; same_stream ops x l' else Ok false
      else Ok false
  end.
(** test_inverted_index.cpp:80-132: one query. *)
Definition check_query (tail : N) (sort : list ceit -> list ceit) (fuel : nat) (d : inv_d) (q : list nat) : res bool :=
  do first <- reference tail d q;
  do x <- intersection ce_ops (vd_docs d) (inv_of tail d) sort fuel q;
  same_stream (inter_stream ce_ops (vd_docs d) fuel) x first.
(** test_inverted_index.cpp:51-135. [queries]: the random queries (test_common.hpp:59-90), given the number of terms. *)
Definition test_inter (tail : N) (sort : list ceit -> list ceit) (fuel : nat) (queries : nat -> list (list nat)) (old : inv_d) (junk : N) (t : texts) : res bool :=
  do p <- M_Input.load (t_stats t);
  do o <- test_inv_index old junk t p;
  match o with
  | None => Ok false
  | Some d =>
      do (b, _) <- all_pass (fun q (s : unit) => do b <- check_query tail sort fuel d q; Ok (b, s)) (queries (ef_size (vd_ptrs d))) tt;
      Ok b
  end.

(** ** test_compact_forward_index.cpp *)
(** test_compact_forward_index.cpp:15-16, 23-24. num_docs() is m_pointers.size() - 1 (compact_forward_index.hpp:125-127). *)
Definition fwd_sizes (d : fwd_d) (p : params) : bool := (N.of_nat (ef_size (wd_ptrs d)) - 1 =? pa_universe p)%N && (N.of_nat (wd_terms d) =? pa_terms p)%N.
(** test_compact_forward_index.cpp:35-41: *it and ++it along the list. *)
Fixpoint same_tokens (f : fwd) (base i : nat) (l : list N) : res bool :=
  match l with
  | [] => Ok true
  | x :: l' => do v <- fw_data f (base + i); if (v =? x)%N then same_tokens f base (i + 1) l' else Ok false
  end.
(** test_compact_forward_index.cpp:29-42: one list. *)
Definition check_tokens (tail : N) (d : fwd_d) (x : nat * list N) : res bool :=
  do (base, n) <- fwd_iterator (fwd_of tail d) (fst x);
  if length (snd x) =? n then same_tokens (fwd_of tail d) base 0 (snd x) else Ok false.
(** test_compact_forward_index.cpp:5-47. The loop runs to num_terms(), not num_docs() (line 28). *)
Definition test_fwd (tail : N) (old : fwd_d) (junk : N) (t : texts) : res bool :=
  do p <- M_Input.load (t_stats t);
  do d <- fwd_build_d (N.to_nat (pa_terms p)) (snd (read_lists (N.to_nat (pa_universe p)) (open_file (t_forward t)) junk));
  if fwd_sizes d p then
    do d <- load_file visit_fwd old (save_file visit_fwd d);
    if fwd_sizes d p then
      let n := wd_terms d in
      do (b, _) <- all_pass (fun x (s : unit) => do b <- check_tokens tail d x; Ok (b, s)) (combine (seq 0 n) (snd (read_lists n (open_file (t_forward t)) junk))) tt;
      Ok b
    else Ok false
  else Ok false.
