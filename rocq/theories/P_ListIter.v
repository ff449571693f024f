(** A plain list cursor: shows that the iterator interface has instances (used in examples). *)
From Coq Require Import Sorted.
From Verif Require Import Base M_Iter S_Iter M_TopK S_TopK P_TopK.
Local Open Scope nat_scope.

Definition list_iter_ops (u : nat) : iter_ops (list nat * nat) := {|
  i_deref := fun it => nth (snd it) (fst it) u;
  i_has_next := fun it => snd it <? length (fst it);
  i_next := fun it => Ok (fst it, snd it + 1);
  i_next_geq := fun it lb => Ok (fst it, first_geq (fst it) lb);
  i_access0 := fun it => Ok (fst it, 0);
  i_size := fun it => length (fst it) |}.

Definition list_at (u : nat) (it : list nat * nat) (l : list nat) (p : nat) : Prop :=
  it = (l, p) /\ increasing l /\ Forall (fun x => x < u) l /\ p <= length l /\ l <> [].

Lemma first_geq_le l lb : first_geq l lb <= length l.
Proof. induction l as [|x l IH]; cbn; [lia|]. destruct (lb <=? x); lia. Qed.

Lemma list_cursor u : cursor (list_iter_ops u) u (list_at u).
Proof.
  intros it l p (-> & H1 & H2 & H3 & H4). cbn. repeat split; auto.
  - intros L. eexists. split; [reflexivity|]. unfold list_at. repeat split; auto. lia.
  - intros lb. eexists. split; [reflexivity|]. unfold list_at. repeat split; auto. apply first_geq_le.
  - eexists. split; [reflexivity|]. unfold list_at. repeat split; auto. lia.
Qed.

Definition list_iterator (postings : list (list nat)) (t : nat) : res (list nat * nat) :=
  do l <- get postings t; Ok (l, 0).

Lemma list_opens u postings :
  Forall (fun l => increasing l /\ Forall (fun x => x < u) l /\ l <> []) postings ->
  opens (list_at u) (list_iterator postings) postings.
Proof.
  intros H t l Hl. exists (l, 0). split; [unfold list_iterator; now rewrite (get_ok _ _ _ Hl)|].
  rewrite Forall_forall in H. apply nth_error_In in Hl. destruct (H l Hl) as (A & B & C).
  unfold list_at. repeat split; auto. lia.
Qed.

Fixpoint increasingb (l : list nat) : bool :=
  match l with
  | x :: (y :: _) as t => (x <? y) && increasingb t
  | _ => true
  end.
Lemma increasingb_ok l : increasingb l = true -> increasing l.
Proof.
  induction l as [|x l IH]; intros H; [constructor|].
  assert (Hl : increasing l).
  { apply IH. destruct l; [reflexivity|]. cbn [increasingb] in H. now apply andb_true_iff in H. }
  constructor; [exact Hl|]. destruct l as [|y l]; [constructor|].
  cbn [increasingb] in H. apply andb_true_iff in H. destruct H as [H _]. apply Nat.ltb_lt in H.
  inversion Hl; subst. constructor; [exact H|]. eapply Forall_impl; [|exact H3]. cbn. lia.
Qed.

(** A scanning rmq meets the specification. *)
Lemma scan_rmq_spec l : rmq_ok l (small_rmq (get l)).
Proof.
  intros a b Hab Hb. unfold small_rmq.
  destruct (scan_rmq_ok (get l) l (fun i Hi => get_nth l i 0 Hi) (b + 1 - a) a a a None)
    as [p [E Hp]]; [lia|lia|lia|congruence|].
  exists p. split; [exact E|]. now replace (a + (b + 1 - a) - 1) with b in Hp by lia.
Qed.
