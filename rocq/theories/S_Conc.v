(** Specification: the replies to lookups in a vocabulary and a list of completions. *)
From Verif Require Import Base S_Order S_Vocab S_Completions M_Conc.

(** Lookups covered by the sequential theorems C09-C11 and C14-C16 (F4 excluded). *)
Definition covered (terms cs : list (list N)) (l : lookup) : Prop :=
  match l with
  | Locate t => True
  | LocatePrefix p => True
  | Extract id => 1 <= id <= length terms
  | CLocate c => In c cs
  | CLocatePrefix prefix a b => (a <= b < 4294967296)%N
  | CExtract id => id < length cs
  end.
Definition correct (terms cs : list (list N)) (l : lookup) (r : reply) : Prop :=
  match l, r with
  | Locate t, RId o => forall id, o = Some id <-> (1 <= id /\ nth_error terms (id - 1) = Some t)
  | LocatePrefix p, RRange (Some (a, b)) => exact_range (length terms) (fun i => found_by (nth 0 terms []) p (nth i terms [])) a b
  | LocatePrefix p, RRange None => forall i, i < length terms -> ~ found_by (nth 0 terms []) p (nth i terms [])
  | Extract id, RText s => nth_error terms (id - 1) = Some s
  | CLocate c, RId o => forall i, o = Some i <-> nth_error cs i = Some c
  | CLocatePrefix prefix a b, RRange (Some (i, j)) => exact_range_excl (length cs) (fun k => continues_found (nth 0 cs []) prefix a b (nth k cs [])) i j
  | CLocatePrefix prefix a b, RRange None => forall k, k < length cs -> ~ continues_found (nth 0 cs []) prefix a b (nth k cs [])
  | CExtract id, RText s => nth_error cs id = Some s
  | _, _ => False
  end.

(** Two lookups by the same function with a static array. *)
Definition same_function (l1 l2 : lookup) : Prop :=
  match l1, l2 with
  | Locate _, Locate _ | LocatePrefix _, LocatePrefix _ | CLocate _, CLocate _ | CLocatePrefix _ _ _, CLocatePrefix _ _ _ => True
  | _, _ => False
  end.
(** Six static arrays and two output arrays, with arbitrary contents. *)
Definition memory_ok (m : memory) : Prop := map (@length N) m = [256; 256; 256; 128; 128; 128; 256; 256].

(** Lookups that get as far as decoding a bucket: not those that end at the first entry of one (entries 0, 17, 34, ...), and not the empty prefix. *)
Definition decodes (terms cs : list (list N)) (l : lookup) : Prop :=
  match l with
  | Locate t => forall i, nth_error terms (17 * i) <> Some t
  | LocatePrefix p => p <> []
  | CLocate c => forall i, nth_error cs (17 * i) <> Some c
  | CLocatePrefix _ _ _ => True
  | Extract _ | CExtract _ => False
  end.
(** Two different threads decode with the same function. *)
Definition clash (terms cs : list (list N)) (ts : list (list lookup)) : Prop :=
  exists i j ls1 ls2 l1 l2, i <> j /\ nth_error ts i = Some ls1 /\ nth_error ts j = Some ls2 /\ In l1 ls1 /\ In l2 ls2 /\
    same_function l1 l2 /\ decodes terms cs l1 /\ decodes terms cs l2.
(** Six static arrays and [n] output arrays, with arbitrary contents. *)
Definition memory_of (n : nat) (m : memory) : Prop := map (@length N) m = [256; 256; 256; 128; 128; 128] ++ repeat 256 n.
