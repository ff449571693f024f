(** C22: intersection of posting lists. *)
From Coq Require Import Permutation Sorted.
From Verif Require Import Base M_Iter S_Iter M_Intersect S_Intersect P_Intersect P_ListIter.
Local Open Scope nat_scope.

(** Intersecting the posting lists of one or more terms (1-based ids, in any order, repetitions allowed)
    yields exactly the doc ids common to all of them, increasingly and once each; whatever the order in
    which the code processes them; even if next_geq can only move forward. *)
Theorem C22_intersection :
  forall (It : Type) (ops : iter_ops It) u at_ iterator postings sort ids lists fuel r,
  forward_cursor ops u at_ -> opens at_ iterator postings -> sorts_by_size ops sort ->
  ids <> [] ->
  Forall2 (fun id l => 0 < id /\ nth_error postings (id - 1) = Some l) ids lists ->
  (u + 1) * (length ids + 1) < fuel ->
  common lists r ->
  exists x, intersection ops u iterator sort fuel ids = Ok x /\ yields (inter_stream ops u fuel) x r.
Proof. exact @intersection_forward. Qed.
Print Assumptions C22_intersection.

(** The posting list of one term, iterated, yields its doc ids. *)
Theorem C22_single_list :
  forall (It : Type) (ops : iter_ops It) u at_ iterator postings t l,
  forward_cursor ops u at_ -> opens at_ iterator postings -> nth_error postings t = Some l ->
  exists it, iterator t = Ok it /\ yields (iter_stream ops) it l.
Proof. exact @single_list_forward. Qed.
Print Assumptions C22_single_list.

Definition ex_postings := [[1; 2; 4; 6; 8]; [0; 1; 4; 8]; [2]; [0; 1; 2; 3; 4; 9]].
Fixpoint insert_by_size (x : list nat * nat) (l : list (list nat * nat)) :=
  match l with
  | [] => [x]
  | y :: l' => if length (fst x) <=? length (fst y) then x :: l else y :: insert_by_size x l'
  end.
Definition ex_sort := fold_right insert_by_size [].

Lemma ex_sort_ok : sorts_by_size (list_iter_ops 10) ex_sort.
Proof.
  intros l. induction l as [|x l [P S]]; [split; constructor|]. cbn [ex_sort fold_right]. fold (ex_sort l).
  assert (H : forall m, StronglySorted (fun x y : list nat * nat => length (fst x) <= length (fst y)) m ->
    Permutation (insert_by_size x m) (x :: m) /\
    StronglySorted (fun x y : list nat * nat => length (fst x) <= length (fst y)) (insert_by_size x m)).
  { induction m as [|y m IH]; intros Hm; cbn [insert_by_size].
    - split; repeat constructor.
    - inversion Hm; subst. destruct (Nat.leb_spec (length (fst x)) (length (fst y))).
      + split; [reflexivity|]. constructor; [exact Hm|]. constructor; [exact H|].
        eapply Forall_impl; [|eassumption]. cbn. lia.
      + destruct (IH H1) as [A B]. split; [rewrite A; apply perm_swap|]. constructor; [exact B|].
        eapply Permutation_Forall; [symmetry; exact A|]. constructor; [lia|assumption]. }
  destruct (H (ex_sort l) S) as [A B]. split; [rewrite A; now constructor|exact B].
Qed.

Example C22_nonvacuous :
  forward_cursor (list_iter_ops 10) 10 (list_at 10) /\
  opens (list_at 10) (list_iterator ex_postings) ex_postings /\
  sorts_by_size (list_iter_ops 10) ex_sort /\
  common [[1; 2; 4; 6; 8]; [0; 1; 2; 3; 4; 9]; [0; 1; 4; 8]] [1; 4] /\
  (do x <- intersection (list_iter_ops 10) 10 (list_iterator ex_postings) ex_sort 100 [1; 4; 2];
   do y <- inter_incr (list_iter_ops 10) 10 100 x;
   do z <- inter_incr (list_iter_ops 10) 10 100 y;
   Ok (map (@x_cand _) [x; y; z])) = Ok [1; 4; 10].
Proof.
  split; [apply cursor_forward, list_cursor|]. split.
  { apply list_opens. repeat constructor; try (apply increasingb_ok; reflexivity); try lia; discriminate. }
  split; [exact ex_sort_ok|]. split; [|reflexivity].
  split; [apply increasingb_ok; reflexivity|]. intros x. cbn. split.
  - intros [<-|[<-|[]]]; repeat constructor; cbn; tauto.
  - intros H. inversion H as [|? ? H1 H']; subst. inversion H' as [|? ? H2 H'']; subst. inversion H''; subst.
    cbn in *. intuition (subst; try lia; try tauto).
Qed.
