(** Outcomes of C++ computations, checked memory accesses, loops with fuel. *)
From Coq Require Export List Arith NArith ZArith Lia Bool.
From Coq Require Export ZifyBool ZifyNat ZifyN.
Export ListNotations.

(** [Ok v]: normal result; [Exn]: a C++ exception; [UB]: undefined behaviour
    (out-of-bounds access, unreachable code, ...); [Fuel]: the bound given to a
    loop of the model was too small (never a result of the program). *)
Inductive res (A : Type) : Type :=
| Ok (a : A)
| Exn
| UB
| Fuel.
Arguments Ok {A} a.
Arguments Exn {A}.
Arguments UB {A}.
Arguments Fuel {A}.

Definition bind {A B} (x : res A) (f : A -> res B) : res B :=
  match x with Ok a => f a | Exn => Exn | UB => UB | Fuel => Fuel end.

Notation "'do' x <- e ; f" := (bind e (fun x => f))
  (at level 200, x pattern, e at level 100, f at level 200, right associativity).

(** Checked element read. *)
Definition get {A} (l : list A) (i : nat) : res A :=
  match nth_error l i with Some a => Ok a | None => UB end.

(** Checked element write. *)
Fixpoint upd {A} (l : list A) (i : nat) (v : A) : list A :=
  match l, i with
  | [], _ => []
  | _ :: t, O => v :: t
  | x :: t, S j => x :: upd t j v
  end.
Definition set {A} (l : list A) (i : nat) (v : A) : res (list A) :=
  if i <? length l then Ok (upd l i v) else UB.

(** Checked read of [n] consecutive elements (source of a memcpy). *)
Definition slice {A} (l : list A) (pos n : nat) : res (list A) :=
  if pos + n <=? length l then Ok (firstn n (skipn pos l)) else UB.

(** Checked overwrite of consecutive elements (destination of a memcpy). *)
Definition blit {A} (l : list A) (pos : nat) (src : list A) : res (list A) :=
  if pos + length src <=? length l
  then Ok (firstn pos l ++ src ++ skipn (pos + length src) l)
  else UB.

(** A loop: [step] returns either the next state or the loop's result. *)
Fixpoint loop {S R} (fuel : nat) (step : S -> res (S + R)) (s : S) : res R :=
  match fuel with
  | O => Fuel
  | Datatypes.S f =>
      match step s with
      | Ok (inl s') => loop f step s'
      | Ok (inr r) => Ok r
      | Exn => Exn
      | UB => UB
      | Fuel => Fuel
      end
  end.

(** Total-correctness rule for loops: invariant [I], measure [m]. *)
Lemma loop_ok {S R} (step : S -> res (S + R)) (I : S -> Prop) (m : S -> nat) (Q : R -> Prop) :
  (forall s, I s ->
     match step s with
     | Ok (inl s') => I s' /\ m s' < m s
     | Ok (inr r) => Q r
     | _ => False
     end) ->
  forall fuel s, I s -> m s < fuel -> exists r, loop fuel step s = Ok r /\ Q r.
Proof.
  intros Hstep fuel; induction fuel as [|f IH]; intros s HI Hm; [lia|].
  cbn [loop]. specialize (Hstep s HI).
  destruct (step s) as [[s'|r]| | |]; try contradiction.
  - destruct Hstep as [HI' Hlt]. apply IH; [exact HI'|lia].
  - exists r; split; [reflexivity|exact Hstep].
Qed.

(** The same with the measure as an index of the invariant. *)
Lemma loop_ok_n {S R} (step : S -> res (S + R)) (I : nat -> S -> Prop) (Q : R -> Prop) :
  (forall n s, I n s ->
     match step s with
     | Ok (inl s') => exists n', n' < n /\ I n' s'
     | Ok (inr r) => Q r
     | _ => False
     end) ->
  forall fuel n s, I n s -> n < fuel -> exists r, loop fuel step s = Ok r /\ Q r.
Proof.
  intros Hstep fuel; induction fuel as [|f IH]; intros n s HI Hm; [lia|].
  cbn [loop]. specialize (Hstep n s HI).
  destruct (step s) as [[s'|r]| | |]; try contradiction.
  - destruct Hstep as (n' & Hlt & HI'). apply (IH n'); [exact HI'|lia].
  - exists r; split; [reflexivity|exact Hstep].
Qed.

Lemma loop_mono {S R} (step : S -> res (S + R)) :
  forall f s r, loop f step s = Ok r -> forall f', f <= f' -> loop f' step s = Ok r.
Proof.
  induction f as [|f IH]; intros s r H f' Hf; [discriminate|].
  destruct f' as [|f']; [lia|]. cbn [loop] in *.
  destruct (step s) as [[s'|x]| | |]; try discriminate.
  - apply IH; [exact H|lia].
  - exact H.
Qed.

Lemma bind_ok {A B} (x : res A) (f : A -> res B) (b : B) :
  bind x f = Ok b -> exists a, x = Ok a /\ f a = Ok b.
Proof. destruct x; cbn; intros H; try discriminate. eauto. Qed.

(** Facts about checked memory. *)
Lemma get_ok {A} (l : list A) i a : nth_error l i = Some a -> get l i = Ok a.
Proof. unfold get; intros ->; reflexivity. Qed.

Lemma get_nth {A} (l : list A) i d : i < length l -> get l i = Ok (nth i l d).
Proof. intros H. apply get_ok. apply nth_error_nth'. exact H. Qed.

Lemma get_app_hd {A} (l1 l2 : list A) x : get (l1 ++ x :: l2) (length l1) = Ok x.
Proof. apply get_ok. rewrite nth_error_app2, Nat.sub_diag by lia. reflexivity. Qed.

Lemma upd_length {A} (l : list A) i v : length (upd l i v) = length l.
Proof. revert i; induction l as [|x l IH]; intros [|i]; cbn; auto. Qed.

Lemma upd_nth_error {A} (l : list A) i v j :
  nth_error (upd l i v) j =
  if (i =? j) && (i <? length l) then Some v else nth_error l j.
Proof.
  revert i j; induction l as [|x l IH]; intros i j; cbn [upd length].
  - rewrite andb_false_r. reflexivity.
  - destruct i as [|i], j as [|j]; cbn; try reflexivity. rewrite IH. reflexivity.
Qed.

Lemma upd_nth {A} (l : list A) i v j d :
  nth j (upd l i v) d = if (i =? j) && (i <? length l) then v else nth j l d.
Proof.
  revert i j; induction l as [|x l IH]; intros i j; cbn [upd length].
  - rewrite andb_false_r. reflexivity.
  - destruct i as [|i], j as [|j]; cbn; try reflexivity. rewrite IH. reflexivity.
Qed.
Lemma set_ok {A} (l : list A) i v : i < length l -> set l i v = Ok (upd l i v).
Proof. intros H. unfold set. destruct (Nat.ltb_spec i (length l)); [reflexivity|lia]. Qed.
Lemma upd_same {A} (l : list A) i v : i < length l -> nth_error (upd l i v) i = Some v.
Proof. intros H. rewrite upd_nth_error, Nat.eqb_refl. destruct (Nat.ltb_spec i (length l)); [reflexivity|lia]. Qed.
Lemma upd_other {A} (l : list A) i v j : i <> j -> nth_error (upd l i v) j = nth_error l j.
Proof. intros H. rewrite upd_nth_error. destruct (Nat.eqb_spec i j); [congruence|reflexivity]. Qed.

Lemma slice_app {A} (a b c : list A) :
  slice (a ++ b ++ c) (length a) (length b) = Ok b.
Proof.
  unfold slice. rewrite !app_length.
  destruct (Nat.leb_spec (length a + length b) (length a + (length b + length c))); [|lia].
  rewrite skipn_app, skipn_all, Nat.sub_diag. cbn.
  rewrite firstn_app, Nat.sub_diag, firstn_all. cbn. now rewrite app_nil_r.
Qed.

Lemma slice_ok {A} (l : list A) pos n :
  pos + n <= length l -> slice l pos n = Ok (firstn n (skipn pos l)).
Proof. intros H. unfold slice. destruct (Nat.leb_spec (pos + n) (length l)); [reflexivity|lia]. Qed.

Lemma blit_ok {A} (l : list A) pos src :
  pos + length src <= length l ->
  blit l pos src = Ok (firstn pos l ++ src ++ skipn (pos + length src) l).
Proof. intros H. unfold blit. destruct (Nat.leb_spec (pos + length src) (length l)); [reflexivity|lia]. Qed.

Lemma blit_length {A} (l : list A) pos src l' :
  blit l pos src = Ok l' -> length l' = length l.
Proof.
  unfold blit. destruct (Nat.leb_spec (pos + length src) (length l)); intros E; [|discriminate].
  injection E as <-. rewrite !app_length, firstn_length, skipn_length. lia.
Qed.

(** The first [pos + n] elements after a blit. *)
Lemma blit_firstn {A} (l : list A) pos src n :
  pos + length src <= length l -> n <= length src ->
  firstn (pos + n) (firstn pos l ++ src ++ skipn (pos + length src) l) = firstn pos l ++ firstn n src.
Proof.
  intros H Hn.
  assert (E : length (firstn pos l) = pos) by (rewrite firstn_length; lia).
  rewrite firstn_app, E.
  replace (pos + n - pos) with n by lia.
  rewrite (firstn_all2 (firstn pos l)) by lia.
  f_equal. rewrite firstn_app.
  replace (n - length src) with 0 by lia. cbn. now rewrite app_nil_r.
Qed.

(** List facts missing from the 8.16 standard library. *)
Lemma skipn_skipn {A} (a b : nat) (l : list A) : skipn a (skipn b l) = skipn (a + b) l.
Proof.
  revert l; induction b as [|b IH]; intros l.
  - now rewrite Nat.add_0_r.
  - rewrite Nat.add_succ_r. destruct l as [|x l]; [now rewrite !skipn_nil|]. cbn. apply IH.
Qed.

Lemma nth_skipn {A} (a i : nat) (l : list A) d : nth i (skipn a l) d = nth (a + i) l d.
Proof.
  revert l; induction a as [|a IH]; intros l; [reflexivity|].
  destruct l as [|x l]; [now destruct i|]. cbn. apply IH.
Qed.

Lemma nth_firstn {A} (n i : nat) (l : list A) d : i < n -> nth i (firstn n l) d = nth i l d.
Proof.
  revert i l; induction n as [|n IH]; intros i l H; [lia|].
  destruct l as [|x l]; [reflexivity|]. destruct i as [|i]; [reflexivity|]. cbn. apply IH. lia.
Qed.

Lemma nth_error_skipn {A} (a i : nat) (l : list A) : nth_error (skipn a l) i = nth_error l (a + i).
Proof.
  revert l; induction a as [|a IH]; intros l; [reflexivity|].
  destruct l as [|x l]; [now destruct i|]. cbn. apply IH.
Qed.

Lemma nth_error_firstn {A} (n i : nat) (l : list A) : i < n -> nth_error (firstn n l) i = nth_error l i.
Proof.
  revert i l; induction n as [|n IH]; intros i l H; [lia|].
  destruct l as [|x l]; [reflexivity|]. destruct i as [|i]; [reflexivity|]. cbn. apply IH. lia.
Qed.

Lemma nth_error_ext {A} (l1 l2 : list A) : (forall i, nth_error l1 i = nth_error l2 i) -> l1 = l2.
Proof.
  revert l2; induction l1 as [|x l1 IH]; intros [|y l2] H.
  - reflexivity.
  - specialize (H 0); discriminate.
  - specialize (H 0); discriminate.
  - pose proof (H 0) as H0. injection H0 as ->. f_equal. apply IH. intros i. exact (H (S i)).
Qed.

Lemma nth_error_nth_iff {A} (l : list A) i d x :
  nth_error l i = Some x <-> i < length l /\ nth i l d = x.
Proof.
  split.
  - intros H. split; [apply nth_error_Some; congruence|]. now apply nth_error_nth.
  - intros [H <-]. now apply nth_error_nth'.
Qed.

Lemma Forall2_len {A B} (P : A -> B -> Prop) l1 l2 : Forall2 P l1 l2 -> length l1 = length l2.
Proof. induction 1; cbn; auto. Qed.
