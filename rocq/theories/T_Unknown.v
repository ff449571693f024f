(** C75: words that occur in no completion. A conjunctive search ignores them: any number of them can be added to the complete words of the query without changing
    any answer of a session, whatever it is (also if it is undefined behaviour). A prefix search with such a complete word finds nothing. For all four types, every
    collection, every k and every history, on any containers. *)
From Coq Require Import String.
From Verif Require Import Base S_Order S_Vocab S_Parse M_Fc M_Heap M_Containers M_Auto M_Auto1 S_Collection S_Index S_Found M_Auto2 S_Index2 M_Blocked S_Blocked S_Rearr P_Rearr P_Unknown.
From Verif Require Import P_Heap P_ListContainers M_CompactEf M_Real P_Real S_Json.
From Verif Require Import T_Auto1 T_Auto2 T_Auto4 T_Real T_Build T_Rearr.
Local Open Scope nat_scope.

Theorem C75_type1 : forall K c x fuel rs1 rs2 s, wf_collection c -> ac1_build K (files_of c) = Ok x -> state1_ok s ->
  Forall2 (same_known c) rs1 rs2 -> answers1 K x fuel rs1 s = answers1 K x fuel rs2 s.
Proof. exact known1. Qed.
Theorem C75_type2 : forall K c x fuel rs1 rs2 s, wf_collection c -> ac2_build K (files_of c) = Ok x -> state2_ok s ->
  Forall2 (same_known c) rs1 rs2 -> answers2 K x fuel rs1 s = answers2 K x fuel rs2 s.
Proof. exact known2. Qed.
Theorem C75_type3 : forall K c x fuel rs1 rs2 s, wf_collection c -> ac3_build K (files_of c) = Ok x -> state2_ok s ->
  Forall2 (same_known c) rs1 rs2 -> answers3 K x fuel rs1 s = answers3 K x fuel rs2 s.
Proof. exact known3. Qed.
Theorem C75_type4 : forall K m c x fuel rs1 rs2 s, wf_collection c -> ac4_build K m (files_of c) = Ok x -> state2_ok s ->
  Forall2 (same_known c) rs1 rs2 -> answers4 K x fuel rs1 s = answers4 K x fuel rs2 s.
Proof. exact known4. Qed.

(** Prefix searches. *)
Theorem C75_nothing1 : forall K c x fuel r s, wf_collection c -> ac1_build K (files_of c) = Ok x -> state1_ok s -> unknown_word c r ->
  exists s', ac1_request K x fuel r s = Ok s' /\ pool_results (s1_pool s') = Ok [].
Proof. intros K c x fuel r s Hwf E Hs Hr. exact (unknown1 c Hwf _ (dict1 K c x E) K x fuel r s eq_refl Hr Hs). Qed.
Theorem C75_nothing2 : forall K c x fuel r s, wf_collection c -> ac2_build K (files_of c) = Ok x -> state2_ok s -> unknown_word c r ->
  exists s', ac2_request K x fuel r s = Ok s' /\ pool_results (s2_pool s') = Ok [].
Proof.
  intros K c x fuel r s Hwf E Hs Hr. refine (unknown2 c Hwf (co_dict (a2_core K x)) _ K x fuel r s eq_refl Hr Hs).
  apply (dict_core K). unfold ac2_build in E. bound E. injection E as <-. reflexivity.
Qed.
Theorem C75_nothing3 : forall K c x fuel r s, wf_collection c -> ac3_build K (files_of c) = Ok x -> state2_ok s -> unknown_word c r ->
  exists s', ac3_request K x fuel r s = Ok s' /\ pool_results (s2_pool s') = Ok [].
Proof.
  intros K c x fuel r s Hwf E Hs Hr. refine (unknown3 c Hwf (co_dict (a3_core K x)) _ K x fuel r s eq_refl Hr Hs).
  apply (dict_core K). unfold ac3_build in E. bound E. injection E as <-. reflexivity.
Qed.
Theorem C75_nothing4 : forall K m c x fuel r s, wf_collection c -> ac4_build K m (files_of c) = Ok x -> state2_ok s -> unknown_word c r ->
  exists s', ac4_request K x fuel r s = Ok s' /\ pool_results (s2_pool s') = Ok [].
Proof.
  intros K m c x fuel r s Hwf E Hs Hr. refine (unknown4 c Hwf (co_dict (a4_core x)) _ K x fuel r s eq_refl Hr Hs).
  apply (dict_core K). unfold ac4_build in E. bound E. injection E as <-. reflexivity.
Qed.
Definition all_unknown := (C75_type1, C75_type2, C75_type3, C75_type4, C75_nothing1, C75_nothing2, C75_nothing3, C75_nothing4).
Print Assumptions all_unknown.

(** "zz de d b" and "de b" (zz and d are no words), and "a zz b", on the containers as implemented; with words that are known the answer changes. *)
Example C75_nonvacuous :
  let r q := {| rq_conj := true; rq_k := 10; rq_text := bytes q |} in
  let p q := {| rq_conj := false; rq_k := 10; rq_text := bytes q |} in
  let rs1 := [r "zz de d b"; p "a b"; r "zz b"]%string in let rs2 := [r "de b"; p "a b"; r "b"]%string in
  wf_collection coll_ex /\ Forall2 (same_known coll_ex) rs1 rs2 /\ unknown_word coll_ex (p "a zz b")%string /\
  (do x <- ac1_build (real_containers 0 sorting_heap sort_ce) (files_of coll_ex); answers1 _ x 200 (rs1 ++ [p "a zz b"; r "a de b"]%string) state1_new) =
  Ok [[(1, bytes "b de"); (2, bytes "bc a de")]; [(0, bytes "a bc"); (3, bytes "a b")];
      [(0, bytes "a bc"); (1, bytes "b de"); (2, bytes "bc a de"); (3, bytes "a b"); (7, bytes "b")]; []; [(2, bytes "bc a de")]].
Proof.
  cbv zeta. split; [apply C43_exact_nonvacuous|]. split; [|split; [|vm_compute; reflexivity]].
  - assert (N1 : ~ In (bytes "zz") (terms coll_ex)) by (vm_compute; intros H; repeat (destruct H as [H|H]; [discriminate H|]); exact H).
    assert (N2 : ~ In (bytes "d") (terms coll_ex)) by (vm_compute; intros H; repeat (destruct H as [H|H]; [discriminate H|]); exact H).
    repeat apply Forall2_cons; [| | |apply Forall2_nil]; (split; [reflexivity|]); (split; [reflexivity|]).
    + exists [bytes "zz"; bytes "de"; bytes "d"], [bytes "de"], (bytes "b"). split; [|split].
      * exists (bytes "zz de d "). split_words (bytes "zz"). word (bytes "de"). word (bytes "d"). constructor.
      * exists (bytes "de "). split_words (bytes "de"). constructor.
      * cbn [rq_conj]. intros t Ht. split; [intros [<-|[<-|[<-|[]]]]; [contradiction|now left|contradiction]|intros [<-|[]]; right; now left].
    + exists [bytes "a"], [bytes "a"], (bytes "b"). split; [|split; [|reflexivity]]; (exists (bytes "a "); split_words (bytes "a"); constructor).
    + exists [bytes "zz"], [], (bytes "b"). split; [|split].
      * exists (bytes "zz "). split_words (bytes "zz"). constructor.
      * exists []. split; [reflexivity|]. split; [repeat constructor; discriminate|constructor].
      * cbn [rq_conj]. intros t Ht. split; [intros [<-|[]]; contradiction|intros []].
  - split; [reflexivity|]. exists [bytes "a"; bytes "zz"], (bytes "b"), (bytes "zz"). split; [|split; [right; now left|]].
    + exists (bytes "a zz "). split_words (bytes "a"). word (bytes "zz"). constructor.
    + vm_compute. intros H. repeat (destruct H as [H|H]; [discriminate H|]). exact H.
Qed.
