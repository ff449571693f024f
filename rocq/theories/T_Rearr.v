(** C32: repeating or permuting the complete tokens of a query does not change the result of conjunctive search. For all four types, every
    collection, every k and every history, whatever the result is (also if it is undefined behaviour), on any containers. *)
From Coq Require Import String.
From Verif Require Import Base S_Order S_Vocab S_Parse M_Fc M_Heap M_Containers M_Auto M_Auto1 S_Collection S_Index S_Found M_Auto2 S_Index2 M_Blocked S_Blocked S_Rearr P_Rearr.
From Verif Require Import P_Heap P_ListContainers M_CompactEf M_Real P_Real S_Json.
From Verif Require Import T_Auto1 T_Auto2 T_Auto4 T_Real T_Build.
Local Open Scope nat_scope.

Ltac bound H := repeat match type of H with
  | bind ?e _ = Ok _ => let E := fresh "E" in destruct e eqn:E; cbn [bind] in H; [|discriminate H ..]
  | (let '(_, _) := ?e in _) = Ok _ => destruct e
  end.
Lemma dict1 K c x : ac1_build K (files_of c) = Ok x -> fc_build (terms c) = Ok (a1_dict K x).
Proof. unfold ac1_build. intros H. bound H. injection H as <-. assumption. Qed.
Lemma dict_core K c x : core_build K (files_of c) = Ok x -> fc_build (terms c) = Ok (co_dict x).
Proof. unfold core_build. intros H. bound H. injection H as <-. assumption. Qed.

(** All answers of a session, from any state of the static memory. *)
Definition answers1 K (x : index1 K) fuel rs s := do (outs, s) <- session (ac1_request K x fuel) (fun s => pool_results (s1_pool s)) rs s; Ok outs.
Definition answers2 K (x : index2 K) fuel rs s := do (outs, s) <- session (ac2_request K x fuel) (fun s => pool_results (s2_pool s)) rs s; Ok outs.
Definition answers3 K (x : index3 K) fuel rs s := do (outs, s) <- session (ac3_request K x fuel) (fun s => pool_results (s2_pool s)) rs s; Ok outs.
Definition answers4 K (x : index4 K) fuel rs s := do (outs, s) <- session (ac4_request K x fuel) (fun s => pool_results (s2_pool s)) rs s; Ok outs.

Lemma all_known c rs1 rs2 : Forall2 rearranged rs1 rs2 -> Forall2 (same_known c) rs1 rs2.
Proof. induction 1; constructor; [now apply rearranged_known|assumption]. Qed.
Lemma known1 : forall K c x fuel rs1 rs2 s, wf_collection c -> ac1_build K (files_of c) = Ok x -> state1_ok s ->
  Forall2 (same_known c) rs1 rs2 -> answers1 K x fuel rs1 s = answers1 K x fuel rs2 s.
Proof.
  intros K c x fuel rs1 rs2 s Hwf E (_ & Hb) Hr. apply (alike_outs sim1), (session_alike (same_known c) sim1); [now intros s1 s2 (-> & _)| |exact Hr|now split].
  intros r1 r2 s1 s2 H Hs. exact (request1 c Hwf _ (dict1 K c x E) r1 r2 H K x fuel s1 s2 eq_refl Hs).
Qed.
Theorem C32_type1 : forall K c x fuel rs1 rs2 s, wf_collection c -> ac1_build K (files_of c) = Ok x -> state1_ok s ->
  Forall2 rearranged rs1 rs2 -> answers1 K x fuel rs1 s = answers1 K x fuel rs2 s.
Proof. intros K c x fuel rs1 rs2 s Hwf E Hs Hr. exact (known1 K c x fuel rs1 rs2 s Hwf E Hs (all_known c rs1 rs2 Hr)). Qed.
Lemma same_state2 s : state2_ok s -> sim2 s s.
Proof. intros (_ & Hb & _). unfold sim2. auto 10. Qed.
Lemma known2 : forall K c x fuel rs1 rs2 s, wf_collection c -> ac2_build K (files_of c) = Ok x -> state2_ok s ->
  Forall2 (same_known c) rs1 rs2 -> answers2 K x fuel rs1 s = answers2 K x fuel rs2 s.
Proof.
  intros K c x fuel rs1 rs2 s Hwf E Hs0 Hr. assert (Hd : fc_build (terms c) = Ok (co_dict (a2_core K x))).
  { apply (dict_core K). unfold ac2_build in E. bound E. injection E as <-. reflexivity. }
  apply (alike_outs sim2), (session_alike (same_known c) sim2); [now intros s1 s2 (-> & _)| |exact Hr|now apply same_state2].
  intros r1 r2 s1 s2 H Hs. exact (request2 c Hwf _ Hd r1 r2 H K x fuel s1 s2 eq_refl Hs).
Qed.
Theorem C32_type2 : forall K c x fuel rs1 rs2 s, wf_collection c -> ac2_build K (files_of c) = Ok x -> state2_ok s ->
  Forall2 rearranged rs1 rs2 -> answers2 K x fuel rs1 s = answers2 K x fuel rs2 s.
Proof. intros K c x fuel rs1 rs2 s Hwf E Hs Hr. exact (known2 K c x fuel rs1 rs2 s Hwf E Hs (all_known c rs1 rs2 Hr)). Qed.
Lemma known3 : forall K c x fuel rs1 rs2 s, wf_collection c -> ac3_build K (files_of c) = Ok x -> state2_ok s ->
  Forall2 (same_known c) rs1 rs2 -> answers3 K x fuel rs1 s = answers3 K x fuel rs2 s.
Proof.
  intros K c x fuel rs1 rs2 s Hwf E Hs0 Hr. assert (Hd : fc_build (terms c) = Ok (co_dict (a3_core K x))).
  { apply (dict_core K). unfold ac3_build in E. bound E. injection E as <-. reflexivity. }
  apply (alike_outs sim2), (session_alike (same_known c) sim2); [now intros s1 s2 (-> & _)| |exact Hr|now apply same_state2].
  intros r1 r2 s1 s2 H Hs. exact (request3 c Hwf _ Hd r1 r2 H K x fuel s1 s2 eq_refl Hs).
Qed.
Theorem C32_type3 : forall K c x fuel rs1 rs2 s, wf_collection c -> ac3_build K (files_of c) = Ok x -> state2_ok s ->
  Forall2 rearranged rs1 rs2 -> answers3 K x fuel rs1 s = answers3 K x fuel rs2 s.
Proof. intros K c x fuel rs1 rs2 s Hwf E Hs Hr. exact (known3 K c x fuel rs1 rs2 s Hwf E Hs (all_known c rs1 rs2 Hr)). Qed.
Lemma known4 : forall K m c x fuel rs1 rs2 s, wf_collection c -> ac4_build K m (files_of c) = Ok x -> state2_ok s ->
  Forall2 (same_known c) rs1 rs2 -> answers4 K x fuel rs1 s = answers4 K x fuel rs2 s.
Proof.
  intros K m c x fuel rs1 rs2 s Hwf E Hs0 Hr. assert (Hd : fc_build (terms c) = Ok (co_dict (a4_core x))).
  { apply (dict_core K). unfold ac4_build in E. bound E. injection E as <-. reflexivity. }
  apply (alike_outs sim2), (session_alike (same_known c) sim2); [now intros s1 s2 (-> & _)| |exact Hr|now apply same_state2].
  intros r1 r2 s1 s2 H Hs. exact (request4 c Hwf _ Hd r1 r2 H K x fuel s1 s2 eq_refl Hs).
Qed.
Theorem C32_type4 : forall K m c x fuel rs1 rs2 s, wf_collection c -> ac4_build K m (files_of c) = Ok x -> state2_ok s ->
  Forall2 rearranged rs1 rs2 -> answers4 K x fuel rs1 s = answers4 K x fuel rs2 s.
Proof. intros K m c x fuel rs1 rs2 s Hwf E Hs Hr. exact (known4 K m c x fuel rs1 rs2 s Hwf E Hs (all_known c rs1 rs2 Hr)). Qed.

(** So the index makes no use of the arrangement; that it makes use of the set of tokens is C02 to C05. In a prefix search the order does matter. *)
Definition all_rearr := (C32_type1, C32_type2, C32_type3, C32_type4).
Print Assumptions all_rearr.

Ltac word w := apply (words_word w); [discriminate|repeat constructor; discriminate|].
Ltac split_words w := split; [reflexivity|]; split; [repeat constructor; discriminate|]; word w.
(** "de  bc de b" and "bc de b", in a session with other requests, on the containers as implemented. *)
Example C32_nonvacuous :
  let r q := {| rq_conj := true; rq_k := 10; rq_text := bytes q |} in
  let p q := {| rq_conj := false; rq_k := 10; rq_text := bytes q |} in
  let rs1 := [r "de  bc de b"; p "a  b"; r "zz de b"]%string in let rs2 := [r "bc de b"; p "a b"; r "de zz zz b"]%string in
  Forall2 rearranged rs1 rs2 /\ state1_ok state1_new /\ state2_ok state2_new /\ wf_collection coll_ex /\
  (do x <- ac1_build (real_containers 0 sorting_heap sort_ce) (files_of coll_ex); answers1 _ x 200 rs1 state1_new) =
  Ok [[(2, bytes "bc a de")]; [(0, bytes "a bc"); (3, bytes "a b")]; [(1, bytes "b de"); (2, bytes "bc a de")]].
Proof.
  split; [|split; [split; [split; reflexivity|repeat split]|split; [|split; [apply C43_exact_nonvacuous|vm_compute; reflexivity]]]].
  - repeat apply Forall2_cons; [| | |apply Forall2_nil]; (split; [reflexivity|]); (split; [reflexivity|]).
    + exists [bytes "de"; bytes "bc"; bytes "de"], [bytes "bc"; bytes "de"], (bytes "b"). split; [|split].
      * exists (bytes "de  bc de "). split_words (bytes "de"). apply words_space. word (bytes "bc"). word (bytes "de"). constructor.
      * exists (bytes "bc de "). split_words (bytes "bc"). word (bytes "de"). constructor.
      * intros t. cbn [rq_conj In]. tauto.
    + exists [bytes "a"], [bytes "a"], (bytes "b"). split; [|split; [|reflexivity]].
      * exists (bytes "a  "). split_words (bytes "a"). apply words_space. constructor.
      * exists (bytes "a "). split_words (bytes "a"). constructor.
    + exists [bytes "zz"; bytes "de"], [bytes "de"; bytes "zz"; bytes "zz"], (bytes "b"). split; [|split].
      * exists (bytes "zz de "). split_words (bytes "zz"). word (bytes "de"). constructor.
      * exists (bytes "de zz zz "). split_words (bytes "de"). word (bytes "zz"). word (bytes "zz"). constructor.
      * intros t. cbn [rq_conj In]. tauto.
  - split; [split; reflexivity|]. split; [repeat split|]. split; [reflexivity|]. split; [reflexivity|]. split; [reflexivity|]. split; [repeat constructor|reflexivity].
Qed.
