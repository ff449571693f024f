(** Typing a completion of the input out (C88). *)
From Verif Require Import Base S_Python S_Order M_Auto S_Collection S_Json S_Session S_Prep S_Site.
Local Open Scope nat_scope.
Section Python.
Context {py : python}.

(** A request for [k] suggestions whose text, of at most 127 bytes (F61), is the completion with the id [d] and the words [ws] and, at the end, [w]. *)
Definition types_out (es : entries) (r : option (list N) * option (list N)) (k d : nat) (ws : list (list N)) (w : list N) : Prop :=
  In (d, ws ++ [w]) es /\ fst r = Some (encoded (join (ws ++ [w]))) /\ length (encoded (join (ws ++ [w]))) <= 127 /\ counts (snd r) k /\ 1 <= k.
(** The response [data] is JSON and lists the completion, or [k] completions with smaller ids. All those listed have each of [ws] among their words
    and some word that begins with [w]. *)
Definition offers (es : entries) (k d : nat) (ws : list (list N)) (w data : list N) : Prop :=
  exists out v, is_json data v /\ suggestions (map snd out) v /\
    (In (d, encoded (join (ws ++ [w]))) out \/ length out = k /\ Forall (fun x => fst x < d) out) /\
    forall d' s, In (d', s) out -> exists ws', In (d', ws') es /\ s = encoded (join ws') /\
      incl (map encoded ws) (map encoded ws') /\ exists w', In w' ws' /\ is_prefix (encoded w) (encoded w').
End Python.
