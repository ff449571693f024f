(** Specification: JSON texts (RFC 8259), as bytes. Decoded strings are UTF-8 bytes. *)
From Coq Require Import String Ascii.
From Verif Require Import Base.
Local Open Scope N_scope.

(** The bytes of a literal. *)
Definition bytes (s : string) : list N := map N_of_ascii (list_ascii_of_string s).

Inductive json :=
| JNull
| JBool (b : bool)
| JNum (literal : list N)
| JStr (s : list N)
| JArr (l : list json)
| JObj (l : list (list N * json)).

(** Every relation below is between an input, what is read from it, and the rest of the input. *)

(** Space, tab, line feed, carriage return. *)
Definition is_ws (b : N) : Prop := b = 32 \/ b = 9 \/ b = 10 \/ b = 13.
Inductive ws : list N -> list N -> Prop :=
| ws_none s : ws s s
| ws_some b s r : is_ws b -> ws s r -> ws (b :: s) r.

(** Numbers: -? (0 | [1-9][0-9]* ) (. [0-9]+)? ([eE] [+-]? [0-9]+)? *)
Definition is_digit (b : N) : Prop := 48 <= b <= 57.
Definition digits (t : list N) : Prop := t <> [] /\ Forall is_digit t.
Definition number (t : list N) : Prop :=
  exists sign int frac exp, t = sign ++ int ++ frac ++ exp /\
    (sign = [] \/ sign = bytes "-") /\
    (int = bytes "0" \/ exists b ds, int = b :: ds /\ 49 <= b <= 57 /\ Forall is_digit ds) /\
    (frac = [] \/ exists ds, frac = bytes "." ++ ds /\ digits ds) /\
    (exp = [] \/ exists e s ds, exp = e :: s ++ ds /\ (e = 69 \/ e = 101) /\ (s = [] \/ s = bytes "+" \/ s = bytes "-") /\ digits ds).

(** Four hexadecimal digits. *)
Definition hex (b : N) : option N :=
  if (48 <=? b) && (b <=? 57) then Some (b - 48)
  else if (65 <=? b) && (b <=? 70) then Some (b - 55)
  else if (97 <=? b) && (b <=? 102) then Some (b - 87)
  else None.
Definition hex4 (a b c d v : N) : Prop :=
  exists a' b' c' d', hex a = Some a' /\ hex b = Some b' /\ hex c = Some c' /\ hex d = Some d' /\
    v = ((a' * 16 + b') * 16 + c') * 16 + d'.

(** UTF-8 encoding of a code point. *)
Definition utf8 (v : N) : list N :=
  if v <? 128 then [v]
  else if v <? 2048 then [192 + v / 64; 128 + v mod 64]
  else if v <? 65536 then [224 + v / 4096; 128 + v / 64 mod 64; 128 + v mod 64]
  else [240 + v / 262144; 128 + v / 4096 mod 64; 128 + v / 64 mod 64; 128 + v mod 64].

(** One-character escapes: quotation mark, backslash, /, b, f, n, r, t. *)
Definition escape (e c : N) : Prop :=
  In (e, c) [(34, 34); (92, 92); (47, 47); (98, 8); (102, 12); (110, 10); (114, 13); (116, 9)].

(** The characters of a string after the opening quotation mark. *)
Inductive chars : list N -> list N -> list N -> Prop :=
| ch_end r : chars (34 :: r) [] r
| ch_plain b s d r : 32 <= b -> b <> 34 -> b <> 92 -> chars s d r -> chars (b :: s) (b :: d) r
| ch_escape e c s d r : escape e c -> chars s d r -> chars (92 :: e :: s) (c :: d) r
| ch_unicode h1 h2 h3 h4 v s d r : hex4 h1 h2 h3 h4 v -> ~ 55296 <= v < 57344 -> chars s d r ->
    chars (92 :: 117 :: h1 :: h2 :: h3 :: h4 :: s) (utf8 v ++ d) r
| ch_surrogates h1 h2 h3 h4 v l1 l2 l3 l4 w s d r : hex4 h1 h2 h3 h4 v -> 55296 <= v < 56320 ->
    hex4 l1 l2 l3 l4 w -> 56320 <= w < 57344 -> chars s d r ->
    chars (92 :: 117 :: h1 :: h2 :: h3 :: h4 :: 92 :: 117 :: l1 :: l2 :: l3 :: l4 :: s)
      (utf8 (65536 + (v - 55296) * 1024 + (w - 56320)) ++ d) r.

Inductive value : list N -> json -> list N -> Prop :=
| v_null r : value (bytes "null" ++ r) JNull r
| v_true r : value (bytes "true" ++ r) (JBool true) r
| v_false r : value (bytes "false" ++ r) (JBool false) r
| v_num t r : number t -> value (t ++ r) (JNum t) r
| v_str s d r : chars s d r -> value (34 :: s) (JStr d) r
| v_arr_empty s r : ws s (93 :: r) -> value (91 :: s) (JArr []) r
| v_arr s l r : elements s l r -> value (91 :: s) (JArr l) r
| v_obj_empty s r : ws s (125 :: r) -> value (123 :: s) (JObj []) r
| v_obj s l r : members s l r -> value (123 :: s) (JObj l) r
with elements : list N -> list json -> list N -> Prop :=
| el_last s s1 v s2 r : ws s s1 -> value s1 v s2 -> ws s2 (93 :: r) -> elements s [v] r
| el_more s s1 v s2 s3 l r : ws s s1 -> value s1 v s2 -> ws s2 (44 :: s3) -> elements s3 l r -> elements s (v :: l) r
with members : list N -> list (list N * json) -> list N -> Prop :=
| me_last s s1 k s2 s3 s4 v s5 r :
    ws s (34 :: s1) -> chars s1 k s2 -> ws s2 (58 :: s3) -> ws s3 s4 -> value s4 v s5 -> ws s5 (125 :: r) -> members s [(k, v)] r
| me_more s s1 k s2 s3 s4 v s5 s6 l r :
    ws s (34 :: s1) -> chars s1 k s2 -> ws s2 (58 :: s3) -> ws s3 s4 -> value s4 v s5 -> ws s5 (44 :: s6) -> members s6 l r ->
    members s ((k, v) :: l) r.

(** The text [s] is JSON for the value [v]. *)
Definition is_json (s : list N) (v : json) : Prop := exists s1 s2, ws s s1 /\ value s1 v s2 /\ ws s2 [].

(** Well-formed UTF-8 (RFC 3629). *)
Definition cont (b : N) : Prop := 128 <= b < 192.
Inductive utf8_text : list N -> Prop :=
| u_nil : utf8_text []
| u_1 a s : a < 128 -> utf8_text s -> utf8_text (a :: s)
| u_2 a b s : 194 <= a < 224 -> cont b -> utf8_text s -> utf8_text (a :: b :: s)
| u_3 a b c s : 224 <= a < 240 -> cont b -> cont c -> (a = 224 -> 160 <= b) -> (a = 237 -> b < 160) -> utf8_text s ->
    utf8_text (a :: b :: c :: s)
| u_4 a b c d s : 240 <= a <= 244 -> cont b -> cont c -> cont d -> (a = 240 -> 144 <= b) -> (a = 244 -> b < 144) -> utf8_text s ->
    utf8_text (a :: b :: c :: d :: s).

(** What a client of /topcomp expects: the strings in order, each with its position. *)
Definition decimal (t : list N) (i : nat) : Prop :=
  digits t /\ (i <> 0%nat -> hd 0 t <> 48) /\ fold_left (fun v b => 10 * v + (b - 48)) t 0 = N.of_nat i.
Definition suggestions (strings : list (list N)) (v : json) : Prop :=
  exists poss, length poss = length strings /\ (forall i, (i < length poss)%nat -> decimal (nth i poss []) i) /\
    v = JObj [(bytes "suggestions", JArr (map (fun '(s, t) => JObj [(bytes "value", JStr s); (bytes "data", JStr t)]) (combine strings poss)))].
