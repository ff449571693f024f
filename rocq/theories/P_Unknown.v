(** A prefix search for an unknown word. *)
From Coq Require Import Lia.
From Verif Require Import Base S_Order S_Vocab S_Parse M_Fc M_Containers M_Auto M_Auto1 S_Collection S_Index S_Found M_Auto2 S_Index2 M_Blocked P_Kept P_Pool S_Rearr.
Local Open Scope nat_scope.

Section Unknown.
  Context (c : collection) (Hwf : wf_collection c) (d : fcd) (Hd : fc_build (terms c) = Ok d).
  Lemma no_terms r b : unknown_word c r -> bufs_ok b -> exists b', query_terms d true (rq_text r) b = Ok (None, b').
  Proof.
    intros (_ & ts & last & t & Hq & Ht & Hn) Hb. destruct (query_terms_ok c Hwf d Hd true _ ts last b Hq Hb) as (o & b' & E & _ & R). exists b'. rewrite E.
    destruct o as [[[p x] y]|]; [exfalso|reflexivity]. destruct R as (R & _). specialize (R eq_refl). rewrite Forall_forall in R. apply Hn. apply stored_In. exact (R t Ht).
  Qed.
  Lemma unknown1 K (x : index1 K) fuel r s : a1_dict K x = d -> unknown_word c r -> state1_ok s ->
    exists s', ac1_request K x fuel r s = Ok s' /\ pool_results (s1_pool s') = Ok [].
  Proof.
    intros Hx Hr (_ & Hb). destruct (no_terms r _ Hr Hb) as (b' & E). unfold ac1_request. rewrite (proj1 Hr). unfold ac1_prefix_topk. rewrite Hx, E. cbn [bind]. eexists. split; reflexivity.
  Qed.
  Lemma unknown_core (K : containers) (x : core) fuel k r s : co_dict x = d -> unknown_word c r -> state2_ok s ->
    exists s', core_prefix_topk K x fuel k (rq_text r) s = Ok s' /\ pool_results (s2_pool s') = Ok [].
  Proof.
    intros Hx Hr (_ & Hb & _). destruct (no_terms r _ Hr Hb) as (b' & E). unfold core_prefix_topk, start. rewrite Hx, E. cbn [bind]. eexists. split; reflexivity.
  Qed.
  Lemma unknown2 K (x : index2 K) fuel r s : co_dict (a2_core K x) = d -> unknown_word c r -> state2_ok s ->
    exists s', ac2_request K x fuel r s = Ok s' /\ pool_results (s2_pool s') = Ok [].
  Proof. intros Hx Hr Hs. unfold ac2_request. rewrite (proj1 Hr). now apply unknown_core. Qed.
  Lemma unknown3 K (x : index3 K) fuel r s : co_dict (a3_core K x) = d -> unknown_word c r -> state2_ok s ->
    exists s', ac3_request K x fuel r s = Ok s' /\ pool_results (s2_pool s') = Ok [].
  Proof. intros Hx Hr Hs. unfold ac3_request. rewrite (proj1 Hr). now apply unknown_core. Qed.
  Lemma unknown4 K (x : index4 K) fuel r s : co_dict (a4_core x) = d -> unknown_word c r -> state2_ok s ->
    exists s', ac4_request K x fuel r s = Ok s' /\ pool_results (s2_pool s') = Ok [].
  Proof. intros Hx Hr Hs. unfold ac4_request. rewrite (proj1 Hr). now apply unknown_core. Qed.
End Unknown.
