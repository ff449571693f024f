(** C28: integer codes round-trip. *)
From Verif Require Import Base M_Word S_Bits P_Word M_Bits P_Bits P_BitsRead P_BitsIter P_BitsHist S_Codes M_Codes P_Codes.
Local Open Scope nat_scope.

(** Any integers, each written with any code, after any history of the builder and before any other bits: a reader opened where
    they start returns them and ends where they end. *)
Theorem C28_roundtrip : forall os b0 ints bits fuel, bops_legal [] os -> bvb_ops bvb_empty os = Ok b0 ->
  Forall (fun x => int_ok (fst x) (snd x)) ints -> 65 < fuel ->
  exists b1 b2 it, write_ints b0 ints = Ok b1 /\ bvb_ops b1 (map Push bits) = Ok b2 /\
    read_ints (v_words (bv_build b2)) fuel (bi_new (b_size b0)) (map fst ints) = Ok (map snd ints, it) /\ bi_pos it = b_size b1.
Proof.
  intros os b0 ints bits fuel L E H Hf. destruct (bvb_ops_ok os bvb_empty [] empty_ok L) as (b' & E' & Hb0).
  assert (b' = b0) by congruence. subst b'. set (l := bops_meaning [] os) in *.
  destruct (write_ints_ok ints b0 l Hb0 H) as (b1 & E1 & Hb1).
  assert (Hpush : forall bits b m, bvb_ok b m -> exists b', bvb_ops b (map Push bits) = Ok b' /\ bvb_ok b' (m ++ bits)).
  { clear. induction bits as [|v bits IH]; intros b m Hb; cbn [map bvb_ops].
    - exists b. rewrite app_nil_r. now split.
    - destruct (push_ok b m v Hb) as (b1 & E & Hb1). cbn [bvb_op]. rewrite E. cbn [bind]. destruct (IH b1 _ Hb1) as (b2 & E2 & Hb2).
      exists b2. rewrite <- app_assoc in Hb2. now split. }
  destruct (Hpush bits b1 _ Hb1) as (b2 & E2 & Hb2). exists b1, b2. rewrite <- app_assoc in Hb2. rewrite (bo_size _ _ Hb0).
  destruct (read_ints_ok (b_words b2) fuel Hf ints l bits (bi_new (length l)) (bo_repr _ _ Hb2) (reads_new _ _) H) as (it & E3 & Hit).
  exists it. repeat split; try assumption. rewrite (rd_pos _ _ _ Hit), (bo_size _ _ Hb1), app_length. reflexivity.
Qed.

(** Padding: after push_pad the size is a multiple of the alignment, and eat_pad moves a reader from where the padding starts
    to where it ends. *)
Theorem C28_padding : forall os b0 alignment, bops_legal [] os -> bvb_ops bvb_empty os = Ok b0 -> 1 <= alignment <= 64 ->
  exists b1 it, push_pad b0 alignment = Ok b1 /\ b_size b1 mod alignment = 0 /\ b_size b0 <= b_size b1 < b_size b0 + alignment /\
    eat_pad (b_words b1) (bi_new (b_size b0)) alignment = Ok it /\ bi_pos it = b_size b1.
Proof.
  intros os b0 al L E Ha. destruct (bvb_ops_ok os bvb_empty [] empty_ok L) as (b' & E' & Hb0).
  assert (b' = b0) by congruence. subst b'. set (l := bops_meaning [] os) in *. unfold push_pad, eat_pad. cbn [bi_pos bi_new].
  pose proof (Nat.div_mod (b_size b0) al ltac:(lia)) as Ed. pose proof (Nat.mod_upper_bound (b_size b0) al ltac:(lia)) as Hm.
  destruct (Nat.eqb_spec (b_size b0 mod al) 0) as [Z|Z].
  - exists b0, (bi_new (b_size b0)). repeat split; auto; lia.
  - set (m := b_size b0 mod al) in *. destruct (append_bits_ok b0 l 0 (al - m) Hb0) as (b1 & E1 & Hb1); [lia|apply N.neq_0_lt_0, N.pow_nonzero; discriminate|].
    pose proof (bo_size _ _ Hb0) as S0. pose proof (bo_size _ _ Hb1) as S1. rewrite app_length, bits_of_length in S1.
    destruct (bi_get_bits_ok (b_words b1) (bi_new (b_size b0)) (al - m)) as (r & it & E2 & _ & Ep & _).
    + apply Hb1.
    + apply bi_new_ok.
    + lia.
    + cbn [bi_pos bi_new]. apply (repr_fit _ _ _ (bo_repr _ _ Hb1)). rewrite app_length, bits_of_length. lia.
    + exists b1, it. rewrite E1, E2. cbn [bind bi_pos bi_new] in *. repeat split; try lia.
      assert (Hsz : b_size b1 = (b_size b0 / al + 1) * al) by (rewrite Nat.mul_add_distr_r; lia). rewrite Hsz. now apply Nat.mod_mul; lia.
Qed.

Example C28_nonvacuous :
  let ints := [(Gamma, 0%N); (Delta, 18446744073709551614%N); (Fixed 20, 77%N); (GammaNonzero, 18446744073709551615%N); (Gamma, 18446744073709551614%N)] in
  (Forall (fun x => int_ok (fst x) (snd x)) [(Gamma, 0%N); (Delta, 18446744073709551614%N); (Fixed 20, 77%N); (GammaNonzero, 18446744073709551615%N)]) /\
  match bvb_ops bvb_empty [AppendBits 5 3] with
  | Ok b0 => match write_ints b0 (firstn 4 ints) with
             | Ok b => exists it, read_ints (b_words b) 66 (bi_new 3) (map fst (firstn 4 ints)) = Ok (map snd (firstn 4 ints), it)
             | _ => False
             end
  | _ => False
  end.
Proof. split; [repeat (constructor; [cbn; lia|]); constructor|]. vm_compute. eexists. reflexivity. Qed.

Print Assumptions C28_roundtrip.
Print Assumptions C28_padding.
