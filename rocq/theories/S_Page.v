(** What a browser shows for a piece of HTML that has no other tags than <strong>. *)
From Coq Require Import String.
From Verif Require Import Base S_Json M_Page.
Local Open Scope N_scope.

(** The character references in use. *)
Inductive entity : list N -> N -> Prop :=
| e_amp : entity (bytes "&amp;") 38
| e_lt : entity (bytes "&lt;") 60
| e_gt : entity (bytes "&gt;") 62
| e_quot : entity (bytes "&quot;") 34.

(** The HTML [h] has no markup except <strong> and </strong>: it cannot bring elements, attributes or scripts into the page. *)
Inductive only_bold : list N -> Prop :=
| ob_end : only_bold []
| ob_open : forall h, only_bold h -> only_bold (bytes "<strong>" ++ h)
| ob_close : forall h, only_bold h -> only_bold (bytes "</strong>" ++ h)
| ob_entity : forall e c h, entity e c -> only_bold h -> only_bold (e ++ h)
| ob_char : forall c h, ~ In c [38; 60; 62; 34] -> only_bold h -> only_bold (c :: h).

(** The HTML [h], read with the bold face on or off, shows the characters [t], each bold or not; the tags are properly paired. *)
Inductive shows : bool -> list N -> list (N * bool) -> Prop :=
| sh_end : shows false [] []
| sh_open : forall h t, shows true h t -> shows false (bytes "<strong>" ++ h) t
| sh_close : forall h t, shows false h t -> shows true (bytes "</strong>" ++ h) t
| sh_entity : forall b e c h t, entity e c -> shows b h t -> shows b (e ++ h) ((c, b) :: t)
| sh_char : forall b c h t, ~ In c [38; 60; 62; 34] -> shows b h t -> shows b (c :: h) ((c, b) :: t).

(** [p] occurs in [s]. *)
Definition factor (p s : list N) : Prop := exists a b, s = (a ++ p ++ b)%list.
(** The text does not spell one of the page's own tags. *)
Definition no_own_tag (s : list N) : Prop := ~ factor (bytes "<strong>") s /\ ~ factor (bytes "</strong>") s.

(** The word [w], up to upper and lower case, is what [s] begins with. *)
Definition begins (same : N -> N -> bool) (w s : list N) : Prop :=
  exists a b, s = (a ++ b)%list /\ Forall2 (fun x y => same x y = true) w a.

(** The typed words are highlighted: no word begins at a character that is not bold, and every bold character lies in a word all of whose
    characters are bold. *)
Definition highlighted (same : N -> N -> bool) (ws : list (list N)) (t : list (N * bool)) : Prop :=
  (forall a c b, t = (a ++ (c, false) :: b)%list -> forall w, In w ws -> ~ begins same w (c :: map fst b)) /\
  (forall a c b, t = (a ++ (c, true) :: b)%list ->
     exists w a1 a2 b1 b2, In w ws /\ a = (a1 ++ a2)%list /\ b = (b1 ++ b2)%list /\
       Forall2 (fun x y => same x y = true) w (map fst (a2 ++ (c, true) :: b1)) /\ Forall (fun r => snd r = true) (a2 ++ (c, true) :: b1)).

(** [ws]: the words of a text, in order: what lies between the characters [sp]. *)
Inductive spelled (sp : N -> bool) : list N -> list (list N) -> Prop :=
| sp_none : forall s, Forall (fun c => sp c = true) s -> spelled sp s []
| sp_last : forall s w, Forall (fun c => sp c = true) s -> w <> [] -> Forall (fun c => sp c = false) w -> spelled sp (s ++ w) [w]
| sp_word : forall s w c r ws, Forall (fun c => sp c = true) s -> w <> [] -> Forall (fun c => sp c = false) w -> sp c = true ->
    spelled sp r ws -> spelled sp (s ++ w ++ c :: r) (w :: ws).

(** White space of ECMAScript: tab, line feed, vertical tab, form feed, carriage return, space, no-break space, the Unicode space separators, line
    and paragraph separator, byte order mark. *)
Definition white (c : N) : bool :=
  existsb (N.eqb c) [9; 10; 11; 12; 13; 32; 160; 5760; 8192; 8193; 8194; 8195; 8196; 8197; 8198; 8199; 8200; 8201; 8202; 8232; 8233; 8239; 8287; 12288; 65279].

(** The words with a vertical bar between any two: a regular expression for one of them. *)
Inductive alternatives : list (list N) -> list N -> Prop :=
| alt_one : forall w, alternatives [w] w
| alt_more : forall w ws k, alternatives ws k -> alternatives (w :: ws) (w ++ 124 :: k).

(** Characters with a special meaning in regular expressions: \ ^ $ . * + ? ( ) [ ] { } | *)
Definition ordinary (w : list N) : Prop := Forall (fun c => ~ In c (bytes "\^$.*+?()[]{}|")) w.

(** What is assumed of the browser's regular expressions. *)
Definition regexp_ok (same : N -> N -> bool) (re : regexp) : Prop :=
  (forall keywords v ps, re keywords v = Ok ps -> concat (map piece_text ps) = v) /\
  (forall ws keywords v, alternatives ws keywords -> Forall ordinary ws -> re keywords v = cut_words same ws v).
