(** Proofs for C47: what the answers of all four types have in common. *)
From Coq Require Import Permutation String.
From Verif Require Import Base S_Order S_Vocab S_Parse M_Heap S_Heap M_Iter M_Intersect S_Intersect M_Containers S_Containers M_Auto M_Auto1 S_Collection S_Index M_Auto2 S_Index2 M_Blocked S_Blocked S_Build S_Found.
From Verif Require Import M_Text M_Input S_Text S_Files M_Bits M_Cvec M_Darray M_EfSeq M_Fc M_CompactEf M_Real P_Real P_ListContainers S_Json.
From Verif Require Import P_Heap M_Stored M_Save P_Save P_Stored S_Save T_Auto1 T_Auto2 T_Auto4 T_Input T_Build T_End T_Save.
From Verif Require Import S_Python S_Prep M_Prep P_Prep P_PrepText P_PrepDict P_PrepEnd T_Prep M_Filter S_Filter P_Filter T_Filter T_Loaded S_HeldOut.
Local Open Scope nat_scope.
Local Open Scope list_scope.

Lemma found1_from c r out : answer_found1 c r out -> from_collection c out.
Proof. intros (ts & last & _ & _ & _ & H & _) d s Hin. destruct (H d s Hin) as (ids & Hd & _ & E). eauto. Qed.
Lemma found2_from c r out : answer_found2 c r out -> from_collection c out.
Proof. intros (ts & last & _ & _ & _ & H & _) d s Hin. destruct (H d s Hin) as (ids & Hd & _ & E). eauto. Qed.
Lemma found4_from c bounds r out : answer_found4 c bounds r out -> from_collection c out.
Proof.
  intros (ts & last & _ & H). destruct (rq_conj r); [exact (proj2 H)|]. destruct H as (_ & _ & H & _). intros d s Hin. destruct (H d s Hin) as (ids & Hd & _ & E). eauto.
Qed.
Lemma all_from {A} c (R : A -> list (nat * list N) -> Prop) rs outs : (forall r out, R r out -> from_collection c out) -> Forall2 R rs outs -> Forall (from_collection c) outs.
Proof. intros H F. induction F; constructor; eauto. Qed.

Lemma from_rest n es chosen rest c outs : @valid_input py2 es -> chooses n es chosen -> others es chosen rest -> @describes py2 rest c ->
  Forall (from_collection c) outs -> held_out es chosen outs.
Proof.
  intros Hv Hc Ho D F out d s Hout Hin. rewrite Forall_forall in F. destruct (F out Hout d s Hin) as (ids & Hd & ->).
  destruct (@doc_entry py2 rest c D d ids Hd) as (ws & Hw & E). unfold text. rewrite E, (@encoded_join py2), encoded_bytes2.
  apply Ho in Hw as (Hw & Hn). split; [exists ws; auto|]. intros e He Ej. apply Hn.
  assert (Hee : In e es). { pose proof He as H2. apply in_concat in H2 as (l & Hl & H2). destruct (In_nth _ _ [] Hl) as (i & _ & <-). exact (proj1 (ch_from _ _ _ Hc i e H2)). }
  rewrite (@join_entry py2 es Hv (d, ws) e Hw Hee Ej). exact He.
Qed.
