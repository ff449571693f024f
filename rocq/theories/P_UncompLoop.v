(** An intersection over 8-bit lists and 256 documents that never ends. *)
From Coq Require Import Sorted.
From Verif Require Import Base M_Iter S_Iter M_Word M_Bits M_EfSeq M_InvIndex M_Intersect M_Uncomp.
Local Open Scope nat_scope.

(** A loop whose state always steps inside a set of states never ends. *)
Lemma loop_forever {S R} (step : S -> res (S + R)) (I : S -> Prop) : (forall s, I s -> exists s', step s = Ok (inl s') /\ I s') ->
  forall fuel s, I s -> loop fuel step s = Fuel.
Proof.
  intros H fuel. induction fuel as [|fuel IH]; intros s Hs; [reflexivity|]. destruct (H s Hs) as (s' & E & H'). cbn [loop]. rewrite E. now apply IH.
Qed.

Definition bad_index : res inv := uinv_build 1 256 [[255]; [255]]%N.
Definition bad_start : res (inter uit) := do ii <- bad_index; intersection (n_ops 1 false) 256 (uinv_open 1 false ii) (fun its => its) 10 [1; 2].
Notation step := (inter_step (n_ops 1 false) 256).
(** The iterators after the first next(): the first is exhausted and shows 0. *)
Definition bad_its : list uit :=
  [{| n_words := [4278320897%N]; n_off := 1; n_univ := 256; n_size := 1; n_id := 0; n_pos := 1 |};
   {| n_words := [4278320897%N]; n_off := 3; n_univ := 256; n_size := 1; n_id := 255; n_pos := 0 |}].
Definition bad_state (val i : nat) : nat * inter uit := (val, {| x_cand := val; x_i := i; x_its := bad_its |}).
Lemma universe_loops : exists ii x,
  uinv_build 1 256 [[255]; [255]]%N = Ok ii /\ intersection (n_ops 1 false) 256 (uinv_open 1 false ii) (fun its => its) 10 [1; 2] = Ok x /\
  x_cand x = 255 /\ forall fuel, inter_incr (n_ops 1 false) 256 fuel x = Fuel.
Proof.
  assert (E : (do x <- bad_start; do it <- get (x_its x) 0; do it <- n_next 1 false it;
               Ok (x_cand x, (0, {| x_cand := N.to_nat (n_id it); x_i := 1; x_its := upd (x_its x) 0 it |}))) = Ok (255, bad_state 0 1)) by (vm_compute; reflexivity).
  destruct (bind_ok _ _ _ E) as (x & E1 & F1). destruct (bind_ok _ _ _ F1) as (it & E2 & F2). destruct (bind_ok _ _ _ F2) as (it' & E3 & F3). clear E F1 F2.
  destruct (bind_ok _ _ _ E1) as (ii & E0 & E4). injection F3 as H1 H2 H3. exists ii, x. split; [exact E0|]. split; [exact E4|]. split; [exact H1|].
  intros fuel. unfold inter_incr. rewrite E2. cbn [bind]. change (i_next (n_ops 1 false) it) with (n_next 1 false it). rewrite E3. cbn [bind].
  change (i_deref (n_ops 1 false) it') with (N.to_nat (n_id it')). rewrite H2, H3.
  unfold inter_next. change (0, {| x_cand := 0; x_i := 1; x_its := bad_its |}) with (bad_state 0 1). clear.
  apply (loop_forever step (fun s => In s [bad_state 0 1; bad_state 255 0; bad_state 0 0])); [|left; reflexivity].
  intros s [<-|[<-|[<-|[]]]]; eexists; (split; [vm_compute; reflexivity|]); [right; left|right; right; left|left]; reflexivity.
Qed.
