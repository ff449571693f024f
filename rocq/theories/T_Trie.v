(** C12, C13: the completion trie. *)
From Verif Require Import Base S_Order S_Search S_Completions M_Find M_Trie S_Trie P_Find P_TrieFinal.
Local Open Scope nat_scope.

(** Building the trie over any well-formed list of completions succeeds, keeps the doc ids of the
    records and produces non-empty non-decreasing arrays, as the containers require. In any trie whose
    containers read those arrays back, locate_prefix(prefix, [a..b]) is the exact range of
    the completions made of [prefix] followed by a token in [a..b]. *)
Theorem C12_trie_locate_prefix : forall cs docs,
  wf_completions cs -> length docs = length cs ->
  exists ta, trie_build (num_levels cs) (records docs cs) = Ok ta /\ ta_docs ta = docs /\
    trie_monotone ta /\
    forall t, trie_holds ta t ->
    forall prefix a b, Forall (fun x => (0 < x)%N) prefix -> (1 <= a <= b)%N ->
    exists r, trie_locate_prefix t prefix a b = Ok r /\
      match r with
      | Some (x, y) => exact_range_excl (length cs) (fun i => continues prefix a b (nth i cs [])) x y
      | None => forall i, i < length cs -> ~ continues prefix a b (nth i cs [])
      end.
Proof.
  intros cs docs Hwf Hd. destruct (trie_spec cs docs Hwf Hd) as (ta & A & B & C & D).
  exists ta. repeat split; auto; try apply C. intros t Ht. exact (proj1 (D t Ht)).
Qed.
Print Assumptions C12_trie_locate_prefix.

(** is_member(c, terminator included) is true exactly for the indexed completions. *)
Theorem C13_trie_is_member : forall cs docs,
  wf_completions cs -> length docs = length cs ->
  exists ta, trie_build (num_levels cs) (records docs cs) = Ok ta /\
    forall t, trie_holds ta t ->
    forall c, Forall (fun x => (0 < x)%N) c ->
    exists r, trie_is_member t (terminated c) = Ok r /\ (r = true <-> In c cs).
Proof.
  intros cs docs Hwf Hd. destruct (trie_spec cs docs Hwf Hd) as (ta & A & B & C & D).
  exists ta. split; [exact A|]. intros t Ht. exact (proj2 (D t Ht)).
Qed.
Print Assumptions C13_trie_is_member.

Definition list_seqc (l : list N) : seqc :=
  {| q_size := length l; q_acc := get l; q_itr := fun lo j => get l (lo + j) |}.
Definition list_trie (ta : trie_arrays) : trie :=
  {| tr_nodes := map list_seqc (ta_nodes ta);
     tr_ptrs := map (fun l => list_seqc (map N.of_nat l)) (ta_ptrs ta);
     tr_left := map (fun l => list_seqc (map N.of_nat l)) (ta_left ta);
     tr_sizes := map (fun l => list_seqc (map N.of_nat l)) (ta_sizes ta) |}.

Lemma list_trie_holds ta : trie_holds ta (list_trie ta).
Proof.
  assert (H : forall l, holds l (list_seqc l)).
  { intros l. split; [reflexivity|]. split; cbn; intros; unfold get; rewrite (nth_error_nth' _ 0%N) by assumption; reflexivity. }
  unfold trie_holds, list_trie; cbn. repeat split.
  - induction (ta_nodes ta); constructor; auto.
  - induction (ta_ptrs ta); constructor; auto. apply H.
  - induction (ta_left ta); constructor; auto. apply H.
  - induction (ta_sizes ta); constructor; auto. apply H.
Qed.

Example C12_C13_nonvacuous :
  let cs := [[1]; [1; 2; 3]; [1; 2; 5]; [1; 4]; [2; 1]; [3]]%N in
  let docs := [3; 0; 5; 1; 2; 4] in
  wf_completions cs /\
  exists ta, trie_build (num_levels cs) (records docs cs) = Ok ta /\ trie_holds ta (list_trie ta) /\
    trie_locate_prefix (list_trie ta) [1]%N 2 3 = Ok (Some (1, 3)) /\
    trie_locate_prefix (list_trie ta) [1]%N 2 4 = Ok (Some (1, 4)) /\
    trie_locate_prefix (list_trie ta) [] 2 9 = Ok (Some (4, 6)) /\
    trie_locate_prefix (list_trie ta) [2]%N 2 9 = Ok None /\
    trie_is_member (list_trie ta) (terminated [1; 4]%N) = Ok true /\
    trie_is_member (list_trie ta) (terminated [1; 2]%N) = Ok false.
Proof.
  split.
  - split; [|split; [discriminate|]].
    + cbn; repeat split; repeat first [apply lex_nil | apply lex_head; lia | apply lex_tail].
    + repeat constructor; cbn; lia.
  - eexists. split; [vm_compute; reflexivity|]. split; [apply list_trie_holds|]. repeat split; vm_compute; reflexivity.
Qed.
