(** Proofs about damaged index files. *)
From Coq Require Import ZArith.
From Verif Require Import Base M_Fc M_Word M_Bits M_Cvec M_Darray M_EfSeq M_Rs M_Bp M_Cart M_Stored M_Save S_Crash.
Local Open Scope nat_scope.

Definition quiet {A} (c : codec A) : Prop := forall x f, (exists y, load c x f = Ok y) \/ load c x f = UB.

Lemma pod_quiet n : quiet (pod n).
Proof. intros x f. left. cbn [pod load]. destruct (length f <? n); eexists; reflexivity. Qed.
Lemma convert_quiet {A B} (c : codec A) (to : B -> A) from : quiet c -> quiet (convert c to from).
Proof.
  intros H x f. cbn [convert load]. destruct (H (to x) f) as [([y g] & E)|E]; rewrite E; [left; eexists; reflexivity|right; reflexivity].
Qed.
Lemma signed_quiet n : quiet (signed n).
Proof. apply convert_quiet. apply pod_quiet. Qed.
Lemma nat_quiet c : quiet c -> quiet (nat_of c).
Proof. apply convert_quiet. Qed.
Lemma each_quiet {A} (c : codec A) : quiet c -> forall l f, (exists y, load_each c l f = Ok y) \/ load_each c l f = UB.
Proof.
  intros H l. induction l as [|o l IH]; intros f; cbn [load_each]; [left; eexists; reflexivity|].
  destruct (H o f) as [([y g] & E)|E]; rewrite E; cbn [bind]; [|right; reflexivity].
  destruct (IH g) as [([ys g'] & E')|E']; rewrite E'; cbn [bind]; [left; eexists; reflexivity|right; reflexivity].
Qed.
Lemma vector_quiet {A} (c : codec A) fresh : quiet c -> quiet (vector c fresh).
Proof.
  intros H l f. cbn [vector load]. destruct (length f <? 8); [right; reflexivity|]. destruct (pod_quiet 8 0%N f) as [([n g] & E)|E].
  - unfold u64. rewrite E. cbn [bind]. apply (each_quiet c H).
  - unfold u64. rewrite E. right. reflexivity.
Qed.
Lemma member_quiet {S A} (c : codec A) (get : S -> A) set : quiet c -> quiet (member c get set).
Proof. intros H s f. cbn [member load]. destruct (H (get s) f) as [([y g] & E)|E]; rewrite E; [left; eexists; reflexivity|right; reflexivity]. Qed.
Lemma visits_quiet {S} (cs : list (codec S)) : Forall quiet cs -> quiet (visits cs).
Proof.
  induction 1 as [|c cs H _ IH]; intros s f; cbn [visits fold_right]; [left; eexists; reflexivity|]. cbn [next load].
  destruct (H s f) as [([y g] & E)|E]; rewrite E; cbn [bind]; [exact (IH y g)|right; reflexivity].
Qed.

Ltac quiet_step := first
  [ apply pod_quiet | apply signed_quiet | apply nat_quiet | apply vector_quiet | apply member_quiet | apply visits_quiet | apply Forall_nil | apply Forall_cons | assumption ].
Ltac quiet_all := repeat quiet_step.

Lemma bv_quiet : quiet visit_bv. Proof. unfold visit_bv, word64s. quiet_all. Qed.
Lemma cvec_quiet : quiet visit_cvec. Proof. unfold visit_cvec, word64s. quiet_all. Qed.
Lemma darray_quiet : quiet visit_darray. Proof. unfold visit_darray, nat64s. quiet_all. Qed.
Lemma efs_quiet : quiet visit_efs. Proof. pose proof bv_quiet. pose proof darray_quiet. unfold visit_efs. quiet_all. Qed.
Lemma rsv_quiet : quiet visit_rsv. Proof. pose proof bv_quiet. unfold visit_rsv, nat64s, word64s. quiet_all. Qed.
Lemma bpv_quiet : quiet visit_bpv. Proof. pose proof rsv_quiet. unfold visit_bpv. quiet_all. Qed.
Lemma dict_quiet : quiet visit_dict. Proof. unfold visit_dict. quiet_all. Qed.
Lemma idict_quiet : quiet visit_idict. Proof. unfold visit_idict, nat64s. quiet_all. Qed.
Lemma trie_quiet fresh : quiet (visit_trie fresh). Proof. pose proof efs_quiet. unfold visit_trie. quiet_all. Qed.
Lemma ulist_quiet : quiet visit_ulist. Proof. pose proof bpv_quiet. pose proof cvec_quiet. unfold visit_ulist. quiet_all. Qed.
Lemma inv_quiet : quiet visit_inv. Proof. pose proof efs_quiet. pose proof bv_quiet. unfold visit_inv. quiet_all. Qed.
Lemma fwd_quiet : quiet visit_fwd. Proof. pose proof efs_quiet. pose proof cvec_quiet. unfold visit_fwd. quiet_all. Qed.
Lemma binv_quiet : quiet visit_binv. Proof. pose proof efs_quiet. pose proof bv_quiet. unfold visit_binv. quiet_all. Qed.
Lemma index1_quiet fresh : quiet (visit_index1 fresh).
Proof. pose proof (trie_quiet fresh). pose proof ulist_quiet. pose proof dict_quiet. pose proof inv_quiet. pose proof fwd_quiet. unfold visit_index1. quiet_all. Qed.
Lemma index2_quiet : quiet visit_index2.
Proof. pose proof idict_quiet. pose proof ulist_quiet. pose proof dict_quiet. pose proof inv_quiet. pose proof cvec_quiet. unfold visit_index2. quiet_all. Qed.
Lemma index3_quiet : quiet visit_index3.
Proof. pose proof idict_quiet. pose proof ulist_quiet. pose proof dict_quiet. pose proof inv_quiet. pose proof cvec_quiet. unfold visit_index3. quiet_all. Qed.
Lemma index4_quiet : quiet visit_index4.
Proof. pose proof idict_quiet. pose proof ulist_quiet. pose proof dict_quiet. pose proof binv_quiet. pose proof cvec_quiet. unfold visit_index4. quiet_all. Qed.

Lemma quiet_accepts {A} (c : codec A) old : quiet c -> accepts_all (load_file c old).
Proof.
  intros H f. unfold load_file. destruct (H old f) as [([y g] & E)|E]; rewrite E; [left; eexists; reflexivity|right; reflexivity].
Qed.
