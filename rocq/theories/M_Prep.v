(** Model of the preprocessing scripts in test_data that preprocess.sh runs: extract_dict.py, map_dataset.py,
    build_stats.py, build_inverted_and_forward.py. Python 3: a string is a list of code points; files are UTF-8, in text
    mode with universal newlines. Python 2: a string is a list of bytes (C locale); files are read as they are. What the scripts print is left out. An uncaught exception or exit() is [Exn]. No proofs. *)
From Verif Require Import Base S_Python S_Json M_Input.
Local Open Scope nat_scope.
Section Python.
Context {py : python}.

(** ** Python *)
(** str.isspace, which str.split() splits at (test_data/extract_dict.py:11, test_data/map_dataset.py:23). *)
Definition py_space (c : N) : bool :=
  match py with
  | py2 => (9 <=? c) && (c <=? 13) || (c =? 32)
  | py3 => (9 <=? c) && (c <=? 13) || (28 <=? c) && (c <=? 32) || (c =? 133) || (c =? 160) || (c =? 5760) || (8192 <=? c) && (c <=? 8202) ||
           (c =? 8232) || (c =? 8233) || (c =? 8239) || (c =? 8287) || (c =? 12288)
  end%N.

(** Reading a text file: in Python 3, \r\n and \r become \n; iterating over it yields the lines, each with its \n (test_data/extract_dict.py:9-10, test_data/map_dataset.py:8-9, 21-22). *)
Fixpoint newlines (t : list N) : list N :=
  match t with
  | [] => []
  | c :: t' =>
      if (c =? 13)%N then
        10%N :: match t' with [] => [] | c' :: t'' => if (c' =? 10)%N then newlines t'' else newlines t' end
      else c :: newlines t'
  end.
(** test_data/extract_dict.py:9-10, test_data/map_dataset.py:8-9, 21-22. *)
Fixpoint lines (t : list N) : list (list N) :=
  match t with
  | [] => []
  | c :: t' =>
      if (c =? 10)%N then [10%N] :: lines t'
      else match lines t' with [] => [[c]] | l :: ls => (c :: l) :: ls end
  end.
(** test_data/extract_dict.py:9-10, test_data/map_dataset.py:8-9, 21-22. *)
Definition read_lines (t : list N) : list (list N) := lines (match py with py2 => t | py3 => newlines t end).

(** line.rstrip('\n') (test_data/extract_dict.py:11, test_data/map_dataset.py:10, 23). *)
Fixpoint rstrip (l : list N) : list N :=
  match l with
  | [] => []
  | c :: l' => match rstrip l' with [] => if (c =? 10)%N then [] else [c] | m => c :: m end
  end.
(** split(): [cur] is the word being read (test_data/extract_dict.py:11, test_data/map_dataset.py:23). *)
Fixpoint split_from (cur : list N) (t : list N) : list (list N) :=
  match t with
  | [] => match cur with [] => [] | _ => [cur] end
  | c :: t' =>
      if py_space c then match cur with [] => split_from [] t' | _ => cur :: split_from [] t' end
      else split_from (cur ++ [c]) t'
  end.
(** test_data/extract_dict.py:11, test_data/map_dataset.py:23. *)
Definition split (t : list N) : list (list N) := split_from [] t.

(** Equality and order (by code points or bytes) of strings (test_data/map_dataset.py:11, 28: keys of a dictionary). *)
Fixpoint str_eqb (s t : list N) : bool :=
  match s, t with
  | [], [] => true
  | a :: s', b :: t' => (a =? b)%N && str_eqb s' t'
  | _, _ => false
  end.
(** test_data/extract_dict.py:22: sorted. *)
Fixpoint str_ltb (s t : list N) : bool :=
  match s, t with
  | _, [] => false
  | [], _ :: _ => true
  | a :: s', b :: t' => if (a =? b)%N then str_ltb s' t' else (a <? b)%N
  end.

(** set.add and sorted(set), for elements with [eqb] and [ltb]. The order of iteration over a set does not matter: it is sorted (test_data/extract_dict.py:13). *)
Definition set_add {A} (eqb : A -> A -> bool) (s : list A) (x : A) : list A := if existsb (eqb x) s then s else x :: s.
(** test_data/extract_dict.py:22, test_data/build_inverted_and_forward.py:70. *)
Fixpoint insert {A} (ltb : A -> A -> bool) (x : A) (l : list A) : list A :=
  match l with
  | [] => [x]
  | y :: l' => if ltb y x then y :: insert ltb x l' else x :: l
  end.
(** test_data/extract_dict.py:22, test_data/build_inverted_and_forward.py:70. *)
Definition sorted {A} (ltb : A -> A -> bool) (l : list A) : list A := fold_right (insert ltb) [] l.

(** Dictionaries, in insertion order: d[k] = v; d[k] (None: KeyError) (test_data/map_dataset.py:11). *)
Fixpoint dict_set {K V} (eqb : K -> K -> bool) (d : list (K * V)) (k : K) (v : V) : list (K * V) :=
  match d with
  | [] => [(k, v)]
  | (k', v') :: d' => if eqb k k' then (k', v) :: d' else (k', v') :: dict_set eqb d' k v
  end.
(** test_data/map_dataset.py:28, test_data/build_inverted_and_forward.py:41. *)
Fixpoint dict_get {K V} (eqb : K -> K -> bool) (d : list (K * V)) (k : K) : option V :=
  match d with
  | [] => None
  | (k', v') :: d' => if eqb k k' then Some v' else dict_get eqb d' k
  end.

(** str(n) for a non-negative integer (test_data/map_dataset.py:40-50: str(n)). *)
Fixpoint digits_of (fuel : nat) (n : N) (acc : list N) : list N :=
  match fuel with
  | 0 => acc
  | S f => let acc := (48 + n mod 10)%N :: acc in if (n / 10 =? 0)%N then acc else digits_of f (n / 10) acc
  end.
(** test_data/map_dataset.py:40-50. *)
Definition str (n : N) : list N := digits_of (S (N.size_nat n)) n [].
(** int(s): white space around it is ignored. Simplification: only ASCII digits; Python also accepts a sign, underscores between digits, and
    other decimal digits (test_data/build_inverted_and_forward.py:21-35: int(s)). *)
Fixpoint lstrip (l : list N) : list N :=
  match l with
  | [] => []
  | c :: l' => if py_space c then lstrip l' else l
  end.
(** test_data/build_inverted_and_forward.py:21-35. *)
Definition strip (l : list N) : list N := rev (lstrip (rev (lstrip l))).
(** test_data/build_inverted_and_forward.py:21-35. *)
Definition int (s : list N) : res N :=
  let w := strip s in
  match w with
  | [] => Exn
  | _ => if forallb (fun b => (48 <=? b) && (b <=? 57))%N w then Ok (fold_left (fun v b => 10 * v + (b - 48))%N w 0%N) else Exn
  end.
(** " ".join(s) (test_data/map_dataset.py:42). *)
Fixpoint join_space (ws : list (list N)) : list N :=
  match ws with
  | [] => []
  | w :: ws' => match ws' with [] => w | _ => w ++ 32%N :: join_space ws' end
  end.
(** test_data/map_dataset.py:42. *)
Definition NL : list N := [10%N].

(** x = line.rstrip('\n').split() (test_data/extract_dict.py:11, test_data/map_dataset.py:23, test_data/build_inverted_and_forward.py:33). *)
Definition columns (line : list N) : list (list N) := split (rstrip line).

(** ** extract_dict.py *)
(** test_data/extract_dict.py:9-14; x[1:]. *)
Definition dict_tokens (input : list N) : list (list N) :=
  fold_left (fun tokens line => fold_left (set_add str_eqb) (tl (columns line)) tokens) (read_lines input) [].
(** test_data/extract_dict.py:21-24. *)
Definition extract_dict (input : list N) : list N :=
  flat_map (fun key => key ++ NL) (sorted str_ltb (dict_tokens input)).

(** ** map_dataset.py *)
(** test_data/map_dataset.py:5-12 (and build_inverted_and_forward.py:5-12): ids from 1 on. *)
Definition read_dict (dict : list N) : list (list N * N) :=
  fst (fold_left (fun s line => (dict_set str_eqb (fst s) (rstrip line) (snd s), (snd s + 1)%N)) (read_lines dict) ([], 1%N)).
(** test_data/map_dataset.py:26-35: the ids of the tokens and the number of characters. *)
Fixpoint map_tokens (tokens : list (list N * N)) (ts : list (list N)) : res (list N * nat) :=
  match ts with
  | [] => Ok ([], 0)
  | t :: ts' =>
      match dict_get str_eqb tokens t with
      | None => Exn
      | Some id => do (ids, len) <- map_tokens tokens ts'; Ok (id :: ids, length t + len)
      end
  end.
(** test_data/map_dataset.py:21-47: the lines of .mapped; [longest]: max_string_len. *)
Fixpoint map_lines (tokens : list (list N * N)) (ls : list (list N)) (longest : nat) : res (list N * nat) :=
  match ls with
  | [] => Ok ([], longest)
  | line :: ls' =>
      match columns line with
      | [] => Exn
      | docid :: ts =>
          do (ids, len) <- map_tokens tokens ts;
          let longest := if longest <? len then len else longest in
          do (out, longest) <- map_lines tokens ls' longest;
          Ok (join_space (docid :: map str ids ++ [str 0]) ++ NL ++ out, longest)
      end
  end.
(** The files .mapped and .mapped.stats (lines 49-51) (test_data/map_dataset.py:1-51). *)
Definition map_dataset (input dict : list N) : res (list N * list N) :=
  let tokens := read_dict dict in
  do (out, longest) <- map_lines tokens (read_lines input) 0;
  Ok (out, str (N.of_nat (length tokens)) ++ NL ++ str (N.of_nat longest) ++ NL).

(** ** build_stats.py *)
(** test_data/build_stats.py:22-24: the number of common leading columns. *)
Fixpoint common (q prev : list (list N)) : nat :=
  match q, prev with
  | a :: q', b :: prev' => if str_eqb a b then S (common q' prev') else 0
  | _, _ => 0
  end.
(** test_data/build_stats.py:26-31: [n] levels from [level] on. *)
Fixpoint count_levels (d : list (nat * nat)) (level n : nat) : list (nat * nat) :=
  match n with
  | 0 => d
  | S n' =>
      let d := match dict_get Nat.eqb d level with
               | Some v => dict_set Nat.eqb d level (v + 1)
               | None => dict_set Nat.eqb d level 1
               end in
      count_levels d (level + 1) n'
  end.
(** As above: test_data/build_stats.py:26-31. *)
Record stats := { sc_levels : list (nat * nat); sc_prev : list (list N); sc_universe : N; sc_lines : nat }.
(** test_data/build_stats.py:13-34. *)
Fixpoint stat_lines (ls : list (list N)) (s : stats) : res stats :=
  match ls with
  | [] => Ok s
  | line :: ls' =>
      match columns line with
      | [] => Exn
      | x0 :: q =>
          do docid <- int x0;
          let level := common q (sc_prev s) in
          stat_lines ls' {| sc_levels := count_levels (sc_levels s) level (length q - level); sc_prev := q;
                            sc_universe := if (sc_universe s <? docid)%N then docid else sc_universe s; sc_lines := sc_lines s + 1 |}
      end
  end.
(** test_data/build_stats.py:9, 43-48: the file is opened for appending. *)
Definition build_stats (mapped stats : list N) : res (list N) :=
  do s <- stat_lines (read_lines mapped) {| sc_levels := []; sc_prev := []; sc_universe := 0; sc_lines := 0 |};
  Ok (stats ++ str (N.of_nat (sc_lines s)) ++ NL ++ str (sc_universe s + 1) ++ NL ++ str (N.of_nat (length (sc_levels s))) ++ NL ++
      flat_map (fun kv => str (N.of_nat (snd kv)) ++ NL) (sorted (fun a b => fst a <? fst b) (sc_levels s))).

(** ** build_inverted_and_forward.py *)
(** test_data/build_inverted_and_forward.py:34-50: the ids of one line; every new one gets the doc id appended to its list. *)
Fixpoint post_tokens (tokens : list (list N * N)) (doc : N) (ts : list (list N)) (inv : list (list N)) (mapped : list N) : res (list (list N) * list N) :=
  match ts with
  | [] => Ok (inv, mapped)
  | t :: ts' =>
      match dict_get str_eqb tokens t with
      | None => Exn
      | Some id =>
          do inv <- (if existsb (N.eqb id) mapped then Ok inv
                     else match nth_error inv (N.to_nat id) with
                          | None => Exn
                          | Some l => Ok (upd inv (N.to_nat id) (l ++ [doc]))
                          end);
          post_tokens tokens doc ts' inv (mapped ++ [id])
      end
  end.
(** test_data/build_inverted_and_forward.py:31-56. Assigning to an element that does not exist: IndexError. *)
Fixpoint post_lines (tokens : list (list N * N)) (ls : list (list N)) (inv fwd : list (list N)) : res (list (list N) * list (list N)) :=
  match ls with
  | [] => Ok (inv, fwd)
  | line :: ls' =>
      match columns line with
      | [] => Exn
      | x0 :: ts =>
          do doc <- int x0;
          do (inv, mapped) <- post_tokens tokens doc ts inv [];
          if N.to_nat doc <? length fwd then post_lines tokens ls' inv (upd fwd (N.to_nat doc) mapped) else Exn
      end
  end.
(** f.readline(): an empty string at the end of the file (test_data/build_inverted_and_forward.py:21-25). *)
Definition readline (ls : list (list N)) : list N * list (list N) := match ls with [] => ([], []) | l :: ls' => (l, ls') end.
(** test_data/build_inverted_and_forward.py:63-65, 71-73. *)
Definition list_line (l : list N) : list N := str (N.of_nat (length l)) ++ 32%N :: join_space (map str l) ++ NL.
(** The files .inverted (lines 68-73) and .forward (lines 62-65); the sizes are read from .mapped.stats (lines 20-29). Simplification: the
    UnicodeDecodeError handler is left out (nothing is decoded inside it), and so are the messages (test_data/build_inverted_and_forward.py:1-73). *)
Definition build_inverted_and_forward (input dict stats : list N) : res (list N * list N) :=
  let tokens := read_dict dict in
  let '(l1, ls) := readline (read_lines stats) in
  do num_terms <- int l1;
  let '(_, ls) := readline ls in
  let '(_, ls) := readline ls in
  let '(l4, _) := readline ls in
  do num_docs <- int l4;
  do (inv, fwd) <- post_lines tokens (read_lines input) (repeat [] (N.to_nat num_terms + 1)) (repeat [] (N.to_nat num_docs));
  Ok (flat_map (fun l => list_line (sorted N.ltb (fold_left (set_add N.eqb) l []))) (tl inv), flat_map list_line fwd).

(** ** preprocess.sh *)
(** the files between the scripts of test_data/preprocess.sh:5-9. *)
Definition encode (s : list N) : list N := match py with py2 => s | py3 => flat_map utf8 s end.
(** test_data/preprocess.sh:5-9. *)
Definition preprocess (input : list N) : res texts :=
  let dict := extract_dict input in
  do (mapped, stats) <- map_dataset input dict;
  do stats <- build_stats mapped stats;
  do (inv, fwd) <- build_inverted_and_forward input dict stats;
  Ok {| t_stats := encode stats; t_dict := encode dict; t_mapped := encode mapped; t_inverted := encode inv; t_forward := encode fwd |}.
End Python.
