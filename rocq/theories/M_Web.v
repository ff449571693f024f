(** Model of src/web_server.cpp: the handler of /topcomp. No proofs. *)
From Coq Require Import String.
From Verif Require Import Base M_Trie M_Containers M_Auto M_Auto1 M_Text S_Json.
Local Open Scope nat_scope.

(** web_server.cpp:14-25 escape_json; char is signed, so bytes from 128 on are negative and not escaped. (int)*c in hexadecimal, width 4,
    filled with 0: for values below 256 two zeros and two digits. *)
Definition hex_digit (v : N) : N := if (v <? 10)%N then (48 + v)%N else (87 + v)%N.
(** As above: web_server.cpp:14-25. *)
Definition escaped (b : N) : bool := ((b =? 34) || (b =? 92) || (b <=? 31))%N.
(** As above: web_server.cpp:14-25. *)
Fixpoint escape_json (s : list N) : list N :=
  match s with
  | [] => []
  | b :: s' =>
      (if escaped b then bytes "\u00" ++ [hex_digit (b / 16); hex_digit (b mod 16)]%N else [b]) ++ escape_json s'
  end.

(** std::to_string(size_t). [fuel]: more than the number of digits (src/web_server.cpp:72). *)
Fixpoint to_string_loop (fuel : nat) (v : N) (acc : list N) : res (list N) :=
  match fuel with
  | 0 => Fuel
  | S fuel =>
      let acc := (48 + v mod 10)%N :: acc in
      if (v / 10 =? 0)%N then Ok acc else to_string_loop fuel (v / 10) acc
  end.
(** src/web_server.cpp:72. *)
Definition to_string (v : N) : res (list N) := to_string_loop (S (N.to_nat (N.log2 v))) v [].

(** web_server.cpp:65-73: the loop over the results; [n]: how many are left, [i]: the next. *)
Fixpoint entries (p : pool) (n i : nat) : res (list N) :=
  match n with
  | 0 => Ok []
  | S n =>
      do (score, s) <- pool_get p i;
      do t <- to_string (N.of_nat i);
      do rest <- entries p n (i + 1);
      Ok ((if 0 <? i then bytes "," else []) ++
          bytes "{""value"":""" ++ escape_json s ++ bytes """," ++ bytes """data"":""" ++ t ++ bytes """}" ++ rest)
  end.

(** web_server.cpp:61-75. *)
Definition body (p : pool) : res (list N) :=
  match p_offsets p with
  | [] => UB
  | [_] => Ok (bytes "{""suggestions"":[""value"":"""",""data"":""""]}" ++ [10%N])
  | _ :: o => do l <- entries p (length o) 0; Ok (bytes "{""suggestions"":[" ++ l ++ bytes "]}" ++ [10%N])
  end.

(** web_server.cpp:79 mg_printf_http_chunk(nc, data.c_str(), data.size()): the body is the format of a printf-like function (mongoose is
    not part of the repository; its documented interface is assumed). The format ends at a NUL byte; %% prints %. Any other conversion:
    UB (a few, like %zu, would instead print the size). *)
Fixpoint printf (fmt : list N) : res (list N) :=
  match fmt with
  | [] => Ok []
  | b :: fmt' =>
      if (b =? 0)%N then Ok []
      else if (b =? 37)%N then
        match fmt' with
        | c :: fmt'' => if (c =? 37)%N then do r <- printf fmt''; Ok (37%N :: r) else UB
        | [] => UB
        end
      else do r <- printf fmt'; Ok (b :: r)
  end.

(** std::stoull: spaces, a sign, decimal digits; whatever follows is ignored. Throws without digits and for values of more than 64 bits;
    negative values wrap (src/web_server.cpp:53). *)
Fixpoint read_digits (s : list N) (v : N) : N :=
  match s with b :: s' => if isdigit b then read_digits s' (10 * v + (b - 48)) else v | [] => v end.
(** src/web_server.cpp:53. *)
Definition stoull (s : list N) : res N :=
  let s := skip_spaces s in
  let '(neg, s) := match s with
    | b :: s' => if (b =? 45)%N then (true, s') else if (b =? 43)%N then (false, s') else (false, s)
    | [] => (false, s)
    end in
  match s with
  | b :: _ =>
      if isdigit b then
        let v := read_digits s 0 in
        if (v <? 18446744073709551616)%N then
          Ok (if neg then ((18446744073709551616 - v) mod 18446744073709551616)%N else v)
        else Exn
      else Exn
  | [] => Exn
  end.

(** web_server.cpp:36-86 ev_handler for /topcomp: [qvar], [kvar]: the decoded variables q (at most 127 bytes) and k (at most 15), empty if
    absent. k is passed as uint32_t (autocomplete.hpp:69). Headers and chunk framing are mongoose's. *)
Section Topcomp.
  Variable K : containers.
  Definition topcomp (x : index1 K) (fuel : nat) (qvar kvar : list N) (s : state1) : res (list N * state1) :=
    do k <- (match kvar with [] => Ok 10%N | _ => stoull kvar end);
    do s <- ac1_conjunctive_topk K x fuel (N.to_nat (k mod 4294967296)) qvar s;
    do data <- body (s1_pool s);
    do out <- printf data;
    Ok (out, s).
End Topcomp.
