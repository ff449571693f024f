(** C29, part 1: the sampled select index of Elias-Fano (darray1 for ones, darray0 for zeros). *)
From Verif Require Import Base M_Word S_Bits P_Word M_Bits P_Bits P_BitsHist M_Darray P_Darray.
Local Open Scope nat_scope.

(** Built on a bit vector with any legal history: num_positions() counts the ones (zeros: [neg]), and select(k) is the
    position of the k-th of them. *)
Theorem C29_darray : forall neg os b, bops_legal [] os -> bvb_ops bvb_empty os = Ok b ->
  exists d, da_build neg (bv_build b) = Ok d /\
    d_n d = count_occ Bool.bool_dec (bops_meaning [] os) (negb neg) /\
    forall k fuel, k < d_n d -> length (b_words b) < fuel ->
      exists p, da_select neg d (bv_build b) fuel k = Ok p /\ is_select (negb neg) (bops_meaning [] os) k p.
Proof.
  intros neg os b L E. destruct (bvb_ops_ok os bvb_empty [] empty_ok L) as (b' & E' & [Hr Hs Hc]). assert (b' = b) by congruence. subst b'.
  destruct (darray_ok neg (b_words b) _ Hr) as (d & Ed & Hn & H). exists d. unfold bv_build. rewrite Hs. rewrite Hn. auto.
Qed.
Print Assumptions C29_darray.

(** Dense and sparse blocks, ones and zeros, positions past the first word. *)
Example C29_darray_nonvacuous :
  let os := [Push true; ZeroExtend 100; Push true; Push true; AppendBits 5 3] in
  bops_legal [] os /\
  exists b d d0, bvb_ops bvb_empty os = Ok b /\ da_build false (bv_build b) = Ok d /\ da_build true (bv_build b) = Ok d0 /\ d_n d = 5 /\ d_n d0 = 101 /\
    da_select false d (bv_build b) 3 3 = Ok 103 /\ da_select false d (bv_build b) 3 4 = Ok 105 /\ da_select true d0 (bv_build b) 3 100 = Ok 104.
Proof. split; [cbn; repeat split; lia|]. do 3 eexists. do 7 (split; [vm_compute; reflexivity|]). vm_compute; reflexivity. Qed.
