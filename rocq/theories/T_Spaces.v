(** C74: spaces in front of a query and repeated spaces do not matter: not for the results, and not for what the request leaves behind. For every index, whatever
    its collection, and every state. *)
From Coq Require Import String.
From Verif Require Import Base M_Containers M_Auto M_Auto1 S_Collection M_Auto2 M_Blocked S_Spaces.
From Verif Require Import P_ListContainers P_Spaces S_Json.
From Verif Require Import T_Auto1 T_Auto2 T_Auto4.
Local Open Scope nat_scope.

Theorem C74_type1 : forall K x fuel r r' s, same_request r r' -> ac1_request K x fuel r s = ac1_request K x fuel r' s.
Proof. exact spaces1. Qed.
Theorem C74_type2 : forall K x fuel r r' s, same_request r r' -> ac2_request K x fuel r s = ac2_request K x fuel r' s.
Proof. exact spaces2. Qed.
Theorem C74_type3 : forall K x fuel r r' s, same_request r r' -> ac3_request K x fuel r s = ac3_request K x fuel r' s.
Proof. exact spaces3. Qed.
Theorem C74_type4 : forall K x fuel r r' s, same_request r r' -> ac4_request K x fuel r s = ac4_request K x fuel r' s.
Proof. exact spaces4. Qed.
(** Whole sessions. *)
Theorem C74_sessions : forall rs rs', Forall2 same_request rs rs' ->
  (forall K x fuel results s, session (ac1_request K x fuel) results rs s = session (ac1_request K x fuel) results rs' s) /\
  (forall K x fuel results s, session (ac2_request K x fuel) results rs s = session (ac2_request K x fuel) results rs' s) /\
  (forall K x fuel results s, session (ac3_request K x fuel) results rs s = session (ac3_request K x fuel) results rs' s) /\
  (forall K x fuel results s, session (ac4_request K x fuel) results rs s = session (ac4_request K x fuel) results rs' s).
Proof.
  intros rs rs' F. split; [|split; [|split]]; intros K x fuel results s; apply session_same; try exact F; intros r r' s0.
  - apply spaces1.
  - apply spaces2.
  - apply spaces3.
  - apply spaces4.
Qed.
Definition all_spaces := (C74_type1, C74_type2, C74_type3, C74_type4, C74_sessions).
Print Assumptions all_spaces.

(** Two ways to type a query; a space more behind it counts, unless there is one already. *)
Example C74_nonvacuous :
  let ask b q := {| rq_conj := b; rq_k := 10; rq_text := bytes q |} in
  same_request (ask false "a b"%string) (ask false "  a   b"%string) /\ same_request (ask true "a b "%string) (ask true " a b   "%string) /\
  run1 coll_ex [ask false "a b"; ask true "a b "; ask true "a b"]%string =
    Ok [[(0, bytes "a bc"); (3, bytes "a b")]; [(3, bytes "a b")]; [(0, bytes "a bc"); (2, bytes "bc a de"); (3, bytes "a b")]] /\
  run1 coll_ex [ask false "  a   b"; ask true " a b   "; ask true " a  b"]%string =
    Ok [[(0, bytes "a bc"); (3, bytes "a b")]; [(3, bytes "a b")]; [(0, bytes "a bc"); (2, bytes "bc a de"); (3, bytes "a b")]].
Proof.
  cbv zeta. split; [split; [reflexivity|split; [reflexivity|]]|split; [split; [reflexivity|split; [reflexivity|]]|split; vm_compute; reflexivity]]; cbn [rq_text].
  - eapply rs_trans; [apply rs_front|]. eapply rs_trans; [apply rs_front|]. eapply rs_trans; [apply (rs_next (bytes "  a") (bytes "b"))|]. apply (rs_next (bytes "  a") (bytes " b")).
  - eapply rs_trans; [apply rs_front|]. eapply rs_trans; [apply (rs_next (bytes " a b") [])|]. apply (rs_next (bytes " a b") (bytes " ")).
Qed.
