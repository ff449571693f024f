(** Model of web/topkcomp.js: how the page turns a suggestion into HTML. No proofs.
    Strings are lists of character codes. jQuery-Autocomplete, which calls formatResult and puts its result into the page, is not part of
    the repository. *)
From Coq Require Import String.
From Verif Require Import Base S_Json.
Local Open Scope N_scope.

(** The parts of a string that a regular expression with the flag g cuts it into: what lies between two matches, and the matches
    (web/topkcomp.js:22). *)
Inductive piece := Kept (s : list N) | Hit (s : list N).
(** As above: web/topkcomp.js:22. *)
Definition piece_text (p : piece) : list N := match p with Kept s => s | Hit s => s end.

(** new RegExp("(" + keywords + ")", "gi") applied to a string; [Exn]: the constructor throws a SyntaxError. Regular expressions in general
    are not modelled: the functions below take any (web/topkcomp.js:22). *)
Definition regexp := list N -> list N -> res (list piece).

(** The characters of \s and of String.prototype.trim (web/topkcomp.js:19). *)
Definition js_space (c : N) : bool :=
  ((9 <=? c) && (c <=? 13)) || (c =? 32) || (c =? 160) || (c =? 5760) || ((8192 <=? c) && (c <=? 8202)) || (c =? 8232) || (c =? 8233) ||
  (c =? 8239) || (c =? 8287) || (c =? 12288) || (c =? 65279).

(** The words of a string: split(/\s+/) of what trim leaves. [w]: the word read so far, backwards (web/topkcomp.js:19). *)
Fixpoint js_words (s w : list N) : list (list N) :=
  match s with
  | [] => match w with [] => [] | _ => [rev w] end
  | c :: s' => if js_space c then (match w with [] => js_words s' [] | _ => rev w :: js_words s' [] end) else js_words s' (c :: w)
  end.
(** split of the empty string is one empty string (web/topkcomp.js:19). *)
Definition js_split (s : list N) : list (list N) := match js_words s [] with [] => [[]] | ws => ws end.

(** join('|') (web/topkcomp.js:19). *)
Fixpoint join_bar (ws : list (list N)) : list N :=
  match ws with
  | [] => []
  | [w] => w
  | w :: ws' => (w ++ 124 :: join_bar ws')%list
  end.

(** '<strong>$1<\/strong>' around every match (web/topkcomp.js:22). *)
Definition mark (p : piece) : list N :=
  match p with Kept s => s | Hit s => (bytes "<strong>" ++ s ++ bytes "</strong>")%list end.

(** replace(/c/g, r) for a single character c (web/topkcomp.js:23-26). *)
Fixpoint replace_char (c : N) (r s : list N) : list N :=
  match s with [] => [] | x :: s' => ((if x =? c then r else [x]) ++ replace_char c r s')%list end.

(** Does the string begin with p? (web/topkcomp.js:27) *)
Fixpoint starts (p s : list N) : bool :=
  match p, s with
  | [], _ => true
  | _ :: _, [] => false
  | x :: p', y :: s' => (x =? y) && starts p' s'
  end.

(** replace(/&lt;(\/?strong)&gt;/g, '<$1>'). [skip]: how many characters belong to the match found last (web/topkcomp.js:27). *)
Fixpoint restore (skip : nat) (s : list N) : list N :=
  match s with
  | [] => []
  | c :: s' =>
      match skip with
      | S skip => restore skip s'
      | O =>
          if starts (bytes "&lt;strong&gt;") s then (bytes "<strong>" ++ restore 13 s')%list
          else if starts (bytes "&lt;/strong&gt;") s then (bytes "</strong>" ++ restore 14 s')%list
          else c :: restore 0 s'
      end
  end.

(** formatResult (web/topkcomp.js:12-28). *)
Definition format_result (re : regexp) (value current : list N) : res (list N) :=
  match current with
  | [] => Ok value
  | _ =>
      do ps <- re (join_bar (js_split current)) value;
      let s := concat (map mark ps) in
      let s := replace_char 38 (bytes "&amp;") s in
      let s := replace_char 60 (bytes "&lt;") s in
      let s := replace_char 62 (bytes "&gt;") s in
      let s := replace_char 34 (bytes "&quot;") s in
      Ok (restore 0 s)
  end.

(** What the regular expression does if no keyword has a character with a special meaning: at every position the first keyword found there
    is the match. [same]: characters that the flag i identifies (web/topkcomp.js:22). *)
Section Plain.
  Variable same : N -> N -> bool.
  (** As above: web/topkcomp.js:22. *)
  Fixpoint word_at (w s : list N) : bool :=
    match w, s with
    | [], _ => true
    | _ :: _, [] => false
    | x :: w', y :: s' => same x y && word_at w' s'
    end.
  (** As above: web/topkcomp.js:22. *)
  Definition match_at (ws : list (list N)) (s : list N) : option nat :=
    match find (fun w => word_at w s) ws with Some w => Some (length w) | None => None end.
  (** As above: web/topkcomp.js:22. After an empty match the search goes on one character further. [fuel]: more than the length. *)
  Fixpoint cut_at (fuel : nat) (ws : list (list N)) (s : list N) : res (list piece) :=
    match fuel with
    | O => Fuel
    | S fuel =>
        match match_at ws s with
        | Some (S n) => do ps <- cut_at fuel ws (skipn (S n) s); Ok (Hit (firstn (S n) s) :: ps)
        | Some O =>
            match s with
            | [] => Ok [Hit []]
            | c :: s' => do ps <- cut_at fuel ws s'; Ok (Hit [] :: Kept [c] :: ps)
            end
        | None =>
            match s with
            | [] => Ok []
            | c :: s' => do ps <- cut_at fuel ws s'; Ok (Kept [c] :: ps)
            end
        end
    end.
  (** As above: web/topkcomp.js:22. *)
  Definition cut_words (ws : list (list N)) (s : list N) : res (list piece) := cut_at (S (length s)) ws s.
End Plain.
