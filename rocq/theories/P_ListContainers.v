(** Containers that simply keep lists: the contract of S_Containers has instances (used in examples and
    counterexamples). Also a checker for well-formed collections. *)
From Coq Require Import Sorted Permutation.
From Verif Require Import Base S_Order P_Order S_Vocab S_Completions M_Heap S_Heap P_Heap M_Iter S_Iter M_TopK S_TopK P_TopK P_ListIter.
From Verif Require Import M_Intersect S_Intersect M_Find S_Search M_Trie S_Trie M_Containers S_Containers M_Auto S_Collection.
Local Open Scope nat_scope.

Definition plain_seqc (l : list N) : seqc :=
  {| q_size := length l; q_acc := get l; q_itr := fun lo j => get l (lo + j) |}.

Fixpoint ins_size (x : list nat * nat) (l : list (list nat * nat)) :=
  match l with
  | [] => [x]
  | y :: l' => if length (fst x) <=? length (fst y) then x :: l else y :: ins_size x l'
  end.
Definition sort_size := fold_right ins_size [].

Definition list_containers : containers := {|
  k_seq := fun l => Ok (plain_seqc l);
  k_vec := fun w l => if w =? 0 then Exn else Ok (get (map (fun x => (x mod 2 ^ N.of_nat w)%N) l));
  k_rmq := fun l => Ok (small_rmq (get l));
  k_It := (list nat * nat)%type;
  k_ops := list_iter_ops;
  k_lists := fun u ls => Ok (list_iterator ls);
  k_heap := sorting_heap;
  k_sort := sort_size |}.

Lemma sort_size_ok u : sorts_by_size (list_iter_ops u) sort_size.
Proof.
  intros l. induction l as [|x l [P S]]; [split; constructor|]. cbn [sort_size fold_right]. fold (sort_size l).
  assert (H : forall m, StronglySorted (fun x y : list nat * nat => length (fst x) <= length (fst y)) m ->
    Permutation (ins_size x m) (x :: m) /\
    StronglySorted (fun x y : list nat * nat => length (fst x) <= length (fst y)) (ins_size x m)).
  { induction m as [|y m IH]; intros Hm; cbn [ins_size].
    - split; repeat constructor.
    - inversion Hm; subst. destruct (Nat.leb_spec (length (fst x)) (length (fst y))).
      + split; [reflexivity|]. constructor; [exact Hm|]. constructor; [exact H|].
        eapply Forall_impl; [|eassumption]. cbn. lia.
      + destruct (IH H1) as [A B]. split; [rewrite A; apply perm_swap|]. constructor; [exact B|].
        eapply Permutation_Forall; [symmetry; exact A|]. constructor; [lia|assumption]. }
  destruct (H (sort_size l) S) as [A B]. split; [rewrite A; now constructor|exact B].
Qed.

Lemma list_containers_ok : containers_ok list_containers.
Proof.
  constructor; cbn [k_seq k_vec k_rmq k_It k_ops k_lists k_heap k_sort list_containers].
  - intros l _ _. eexists. split; [reflexivity|]. split; [reflexivity|].
    split; cbn; intros; unfold get; rewrite (nth_error_nth' _ 0%N) by assumption; reflexivity.
  - intros w l Hw _. destruct (Nat.eqb_spec w 0); [lia|]. eexists. split; [reflexivity|]. intros i Hi.
    unfold get. rewrite nth_error_map, (nth_error_nth' _ 0%N) by assumption. reflexivity.
  - intros l _ _. eexists. split; [reflexivity|apply scan_rmq_spec].
  - intros u ls _ _ H _. exists (list_iterator ls), (list_at u). split; [reflexivity|]. split; [apply list_cursor|].
    apply list_opens. eapply Forall_impl; [|exact H]. cbn. tauto.
  - apply sorting_heap_ok.
  - apply sort_size_ok.
Qed.

(** * Checking collections *)
Fixpoint lex_ltb (a b : list N) : bool :=
  match a, b with
  | [], _ :: _ => true
  | x :: a', y :: b' => (x <? y)%N || (x =? y)%N && lex_ltb a' b'
  | _, _ => false
  end.
Lemma lex_ltb_ok a : forall b, lex_ltb a b = true -> lex_lt a b.
Proof.
  induction a as [|x a IH]; intros [|y b] H; cbn in H; try discriminate; [constructor|].
  apply orb_true_iff in H. destruct H as [H|H].
  - apply lex_head. now apply N.ltb_lt.
  - apply andb_true_iff in H. destruct H as [E H]. apply N.eqb_eq in E. subst. apply lex_tail. now apply IH.
Qed.
Fixpoint lex_sortedb (l : list (list N)) : bool :=
  match l with
  | [] => true
  | a :: rest => (match rest with [] => true | b :: _ => lex_ltb a b end) && lex_sortedb rest
  end.
Lemma lex_sortedb_ok l : lex_sortedb l = true -> lex_sorted l.
Proof.
  induction l as [|a l IH]; cbn; [trivial|]. intros H. apply andb_true_iff in H. destruct H as [A B]. split; [|now apply IH].
  destruct l; [trivial|now apply lex_ltb_ok].
Qed.

Lemma forallb_Forall {A} (f : A -> bool) (P : A -> Prop) l : (forall x, f x = true -> P x) -> forallb f l = true -> Forall P l.
Proof. intros H Hl. apply Forall_forall. intros x Hx. apply H. rewrite forallb_forall in Hl. now apply Hl. Qed.

Fixpoint nodupb (l : list nat) : bool :=
  match l with [] => true | x :: l' => negb (existsb (Nat.eqb x) l') && nodupb l' end.
Lemma nodupb_ok l : nodupb l = true -> NoDup l.
Proof.
  induction l as [|x l IH]; cbn; intros H; constructor; apply andb_true_iff in H; destruct H as [A B]; [|now apply IH].
  intros Hx. apply negb_true_iff in A. assert (existsb (Nat.eqb x) l = true); [|congruence].
  apply existsb_exists. exists x. split; [exact Hx|apply Nat.eqb_refl].
Qed.

Definition wf_collectionb (c : collection) : bool :=
  (lex_sortedb (terms c) && negb (length (terms c) =? 0) &&
   forallb (fun t => forallb (fun x => 0 <? x)%N t && (0 <? length t) && (length t <=? 128)) (terms c)) &&
  (lex_sortedb (comps c) && negb (length (comps c) =? 0) &&
   forallb (fun t => forallb (fun x => (0 <? x) && (x <? 4294967295))%N t && (0 <? length t) && (length t <=? 63)) (comps c)) &&
  forallb (forallb (fun x => N.to_nat x <=? length (terms c))) (comps c) &&
  forallb (fun x => existsb (existsb (N.eqb (N.of_nat x))) (comps c)) (seq 1 (length (terms c))) &&
  (length (docs c) =? length (comps c)) && nodupb (docs c) && forallb (fun d => d <? universe c) (docs c) &&
  (N.of_nat (universe c) <? 4294967295)%N &&
  forallb (fun ids => length (concat (words_of c ids)) <=? 128) (comps c) &&
  (N.of_nat (length (comps c)) <? 1073741823)%N && (N.of_nat (length (terms c)) <? 1073741823)%N.

Lemma wf_collectionb_ok c : wf_collectionb c = true -> wf_collection c.
Proof.
  unfold wf_collectionb. rewrite !andb_true_iff. intros ((((((((((((A1 & A2) & A3) & ((B1 & B2) & B3)) & C) & D) & E) & F) & G) & H) & I) & J1) & J2).
  constructor.
  - split; [now apply lex_sortedb_ok|]. split; [intros Hn; rewrite Hn in A2; discriminate|].
    eapply forallb_Forall; [|exact A3]. intros t Ht. rewrite !andb_true_iff in Ht. destruct Ht as ((T1 & T2) & T3).
    split; [eapply forallb_Forall; [|exact T1]; intros; now apply N.ltb_lt|]. apply Nat.ltb_lt in T2. apply Nat.leb_le in T3. lia.
  - split; [now apply lex_sortedb_ok|]. split; [intros Hn; rewrite Hn in B2; discriminate|].
    eapply forallb_Forall; [|exact B3]. intros t Ht. rewrite !andb_true_iff in Ht. destruct Ht as ((T1 & T2) & T3).
    split; [eapply forallb_Forall; [|exact T1]; cbn; intros x Hx; lia|]. apply Nat.ltb_lt in T2. apply Nat.leb_le in T3. lia.
  - eapply forallb_Forall; [|exact C]. intros l Hl. eapply forallb_Forall; [|exact Hl]. cbn. intros; now apply Nat.leb_le.
  - intros x Hx. rewrite forallb_forall in D. specialize (D x). rewrite in_seq in D. specialize (D ltac:(lia)).
    apply existsb_exists in D. destruct D as (ids & Hi & Hx2). exists ids. split; [exact Hi|].
    apply existsb_exists in Hx2. destruct Hx2 as (y & Hy & Ey). apply N.eqb_eq in Ey. now subst.
  - now apply Nat.eqb_eq.
  - now apply nodupb_ok.
  - eapply forallb_Forall; [|exact G]. intros; now apply Nat.ltb_lt.
  - now apply N.ltb_lt.
  - eapply forallb_Forall; [|exact I]. intros; now apply Nat.leb_le.
  - split; now apply N.ltb_lt.
Qed.
