(** Saving and loading: what is loaded is what was saved, for objects whose numbers fit their types. *)
From Coq Require Import ZArith Lia.
From Verif Require Import Base M_Fc M_Word M_Bits P_Bits M_Cvec M_Darray M_EfSeq M_Rs M_Bp M_Cart M_Stored M_Save.
Local Open Scope nat_scope.

Definition good {A} (c : codec A) (P : A -> Prop) : Prop := forall x, P x -> forall x0 f, load c x0 (save c x ++ f) = Ok (x, f).

Lemma le_bytes_length n : forall x, length (le_bytes n x) = n.
Proof. induction n as [|n IH]; intros x; cbn [le_bytes length]; [reflexivity|now rewrite IH]. Qed.
Lemma le_value_bytes n : forall x, (x < 256 ^ N.of_nat n)%N -> le_value (le_bytes n x) = x.
Proof.
  induction n as [|n IH]; intros x Hx; cbn [le_bytes le_value].
  - cbn in Hx. lia.
  - rewrite IH; [|].
    + pose proof (N.div_mod x 256 ltac:(lia)). lia.
    + rewrite Nat2N.inj_succ, N.pow_succ_r' in Hx. apply N.div_lt_upper_bound; lia.
Qed.
Lemma pod_good n : good (pod n) (fun x => (x < 256 ^ N.of_nat n)%N).
Proof.
  intros x Hx x0 f. cbn [pod load save]. rewrite app_length, le_bytes_length. destruct (Nat.ltb_spec (n + length f) n); [lia|].
  pose proof (le_bytes_length n x) as L. rewrite firstn_app, skipn_app, L, Nat.sub_diag, firstn_all2, skipn_all2 by lia.
  cbn [skipn firstn app]. now rewrite app_nil_r, le_value_bytes.
Qed.
Lemma convert_good {A B} (c : codec A) (to : B -> A) from (P : A -> Prop) (Q : B -> Prop) : good c P -> (forall x, Q x -> P (to x) /\ from (to x) = x) -> good (convert c to from) Q.
Proof. intros Hc H x Hx x0 f. destruct (H x Hx) as [Hp E]. cbn [convert load save]. rewrite Hc by assumption. cbn [bind]. now rewrite E. Qed.
Lemma vector_good {A} (c : codec A) fresh P : good c P -> good (vector c fresh) (fun l => (N.of_nat (length l) < W64)%N /\ Forall P l).
Proof.
  intros Hc l [Hl Hp] l0 f. cbn [vector load save]. rewrite <- app_assoc.
  destruct (Nat.ltb_spec (length (le_bytes 8 (N.of_nat (length l)) ++ flat_map (save c) l ++ f)) 8) as [H|_];
    [rewrite app_length, le_bytes_length in H; lia|].
  rewrite (pod_good 8 (N.of_nat (length l)) Hl 0%N). cbn [bind]. rewrite Nat2N.id.
  assert (Hr : length (resized l0 (length l) fresh) = length l).
  { unfold resized. rewrite app_length, firstn_length, repeat_length. lia. }
  revert Hr. generalize (resized l0 (length l) fresh). clear Hl. induction Hp as [|x l Hx Hp IH]; intros [|o olds] Hr; try discriminate Hr; cbn [load_each flat_map app]; [reflexivity|].
  rewrite <- app_assoc, Hc by assumption. cbn [bind]. rewrite IH by (injection Hr; auto). reflexivity.
Qed.

Definition in64 (x : nat) : Prop := (N.of_nat x < W64)%N.
Definition in32 (x : nat) : Prop := (N.of_nat x < 4294967296)%N.
Lemma u64_good : good u64 (fun x => (x < W64)%N).
Proof. exact (pod_good 8). Qed.
Lemma nat64_good : good (nat_of u64) in64.
Proof. apply (convert_good _ _ _ _ _ u64_good). intros x Hx. split; [exact Hx|lia]. Qed.
Lemma nat32_good : good (nat_of u32) in32.
Proof. apply (convert_good _ _ _ _ _ (pod_good 4)). intros x Hx. split; [exact Hx|lia]. Qed.
Lemma nat8_good : good (nat_of u8) (fun x => (N.of_nat x < 256)%N).
Proof. apply (convert_good _ _ _ _ _ (pod_good 1)). intros x Hx. split; [exact Hx|lia]. Qed.
Definition fits_signed (b z : Z) : Prop := (- b <= z < b)%Z.
Lemma signed_good n b : 0 < n -> (2 ^ (8 * Z.of_nat n) = 2 * b)%Z -> good (signed n) (fits_signed b).
Proof.
  intros Hn Hb. apply (convert_good _ _ _ _ _ (pod_good n)). intros z Hz. unfold fits_signed in Hz.
  assert (Hb' : (2 ^ (8 * Z.of_nat n - 1) = b)%Z).
  { replace (8 * Z.of_nat n)%Z with (Z.succ (8 * Z.of_nat n - 1)) in Hb by lia. rewrite Z.pow_succ_r in Hb by lia. lia. }
  assert (HP : (0 <= z mod (2 * b) < 2 * b)%Z) by (apply Z.mod_pos_bound; lia).
  unfold to_unsigned, to_signed. rewrite Hb, Hb'. rewrite Z2N.id by lia. split.
  - assert (E : Z.of_N (256 ^ N.of_nat n) = (2 * b)%Z).
    { rewrite N2Z.inj_pow, nat_N_Z, <- Hb. change (Z.of_N 256) with (2 ^ 8)%Z. rewrite <- Z.pow_mul_r by lia. reflexivity. }
    lia.
  - destruct (Z.ltb_spec z 0).
    + replace (z mod (2 * b))%Z with (z + 2 * b)%Z by (rewrite <- (Z_mod_plus z 1 (2 * b)) by lia; rewrite Z.mul_1_l, Z.mod_small by lia; reflexivity).
      destruct (Z.ltb_spec (z + 2 * b) b); lia.
    + rewrite Z.mod_small by lia. destruct (Z.ltb_spec z b); lia.
Qed.
Definition i64_good := signed_good 8 9223372036854775808 ltac:(lia) eq_refl.
Definition i32_good := signed_good 4 2147483648 ltac:(lia) eq_refl.
Definition i16_good := signed_good 2 32768 ltac:(lia) eq_refl.

(** ** The classes *)
Definition long {A} (l : list A) : Prop := (N.of_nat (length l) < W64)%N.
Definition fit_words (l : list N) : Prop := long l /\ words l.
Definition fit_nats (l : list nat) : Prop := long l /\ Forall in64 l.
Definition fit_bytes (l : list N) : Prop := long l /\ Forall (fun x => (x < 256)%N) l.
Definition fit_ptrs32 (l : list nat) : Prop := long l /\ Forall in32 l.
Lemma words_good : good word64s fit_words.
Proof. exact (vector_good u64 0%N _ u64_good). Qed.
Lemma nats_good : good nat64s fit_nats.
Proof. exact (vector_good _ 0 _ nat64_good). Qed.

Record fit_bv (v : bv) : Prop := { fb_size : in64 (v_size v); fb_words : fit_words (v_words v) }.
Record fit_cvec (v : cvec) : Prop := {
  fv_size : in64 (cv_size v); fv_width : in64 (cv_width v); fv_mask : (cv_mask v < W64)%N; fv_bits : fit_words (cv_bits v) }.
Record fit_darray (d : darray) : Prop := {
  fd_n : in64 (d_n d); fd_blocks : long (d_blocks d) /\ Forall (fits_signed 9223372036854775808) (d_blocks d);
  fd_subs : long (d_subs d) /\ Forall (fun x => (x < 65536)%N) (d_subs d); fd_over : fit_nats (d_over d) }.
Record fit_efs (e : efs) : Prop := {
  fe_l : (N.of_nat (ef_l e) < 256)%N; fe_high : fit_bv (ef_high e); fe_d1 : fit_darray (ef_d1 e); fe_low : fit_bv (ef_low e); fe_size : in64 (ef_size e) }.
Record fit_rsv (r : rsv) : Prop := { fr_bv : fit_bv (rs_bv r); fr_pairs : fit_words (rs_pairs r); fr_hints : fit_nats (rs_hints r); fr_hints0 : fit_nats (rs_hints0 r) }.
Record fit_bpv (p : bpv) : Prop := {
  fp_rs : fit_rsv (bp_rs p); fp_internal : in64 (bp_internal p);
  fp_mins : long (bp_block_min p) /\ Forall (fits_signed 32768) (bp_block_min p);
  fp_tree : long (bp_tree p) /\ Forall (fits_signed 2147483648) (bp_tree p) }.
Record fit_dict (d : fcd) : Prop := {
  ft_size : in64 (fc_size d); ft_ph : fit_ptrs32 (fc_ph d); ft_pb : fit_ptrs32 (fc_pb d); ft_hdrs : fit_bytes (fc_hdrs d); ft_bkts : fit_bytes (fc_bkts d) }.
Record fit_idict (d : fcd) : Prop := {
  fi_size : in64 (fc_size d); fi_ph : fit_nats (fc_ph d); fi_pb : fit_nats (fc_pb d);
  fi_hdrs : long (fc_hdrs d) /\ Forall (fun x => (x < 4294967296)%N) (fc_hdrs d); fi_bkts : fit_bytes (fc_bkts d) }.
Definition fit_efss (l : list efs) : Prop := long l /\ Forall fit_efs l.
Record fit_trie (t : trie_d) : Prop := {
  fq_size : in32 (td_size t); fq_nodes : fit_efss (td_nodes t); fq_ptrs : fit_efss (td_ptrs t); fq_left : fit_efss (td_left t); fq_sizes : fit_efss (td_sizes t) }.
Record fit_ulist (u : ulist_d) : Prop := { fu_rmq : fit_bpv (ud_rmq u); fu_list : fit_cvec (ud_list u) }.
Record fit_inv (d : inv_d) : Prop := { fn_int : in64 (vd_integers d); fn_docs : in64 (vd_docs d); fn_ptrs : fit_efs (vd_ptrs d); fn_data : fit_bv (vd_data d) }.
Record fit_fwd (d : fwd_d) : Prop := { fw_int : in64 (wd_integers d); fw_terms : in64 (wd_terms d); fw_p : fit_efs (wd_ptrs d); fw_d : fit_cvec (wd_data d) }.
Record fit_binv (d : binv_d) : Prop := {
  fx_int : in64 (xd_integers d); fx_docs : in64 (xd_docs d); fx_num : in64 (xd_terms_num d); fx_blocks : fit_ptrs32 (xd_blocks d);
  fx_pl : fit_efs (xd_lists_ptrs d); fx_l : fit_bv (xd_lists d); fx_po : fit_efs (xd_offsets_ptrs d); fx_o : fit_bv (xd_offsets d);
  fx_pt : fit_efs (xd_terms_ptrs d); fx_t : fit_bv (xd_terms d) }.
Record fit1 (d : index1_d) : Prop := {
  f1_comps : fit_trie (d1_comps d); f1_docs : fit_ulist (d1_docs d); f1_min : fit_ulist (d1_min d); f1_dict : fit_dict (d1_dict d);
  f1_inv : fit_inv (d1_inv d); f1_fwd : fit_fwd (d1_fwd d) }.
Record fit2 (d : index2_d) : Prop := {
  f2_comps : fit_idict (d2_comps d); f2_docs : fit_ulist (d2_docs d); f2_min : fit_ulist (d2_min d); f2_dict : fit_dict (d2_dict d);
  f2_inv : fit_inv (d2_inv d); f2_lexid : fit_cvec (d2_lexid d) }.
Record fit3 (d : index3_d) : Prop := {
  f3_comps : fit_idict (d3_comps d); f3_docs : fit_ulist (d3_docs d); f3_dict : fit_dict (d3_dict d); f3_inv : fit_inv (d3_inv d); f3_lexid : fit_cvec (d3_lexid d) }.
Record fit4 (d : index4_d) : Prop := {
  f4_comps : fit_idict (d4_comps d); f4_docs : fit_ulist (d4_docs d); f4_dict : fit_dict (d4_dict d); f4_inv : fit_binv (d4_inv d); f4_lexid : fit_cvec (d4_lexid d) }.

(** One class: the members in the order of its visit member. *)
Ltac visit_start c :=
  let x := fresh "x" in let Hx := fresh "Hx" in intros x Hx ? ?; destruct Hx; destruct x;
  unfold c, visits; cbn [fold_right next member nothing load save]; rewrite <- ?app_assoc.
Ltac visit_with G := rewrite G by assumption; cbn [bind].

Lemma bv_good : good visit_bv fit_bv.
Proof. visit_start visit_bv. visit_with nat64_good. visit_with words_good. reflexivity. Qed.
Lemma cvec_good : good visit_cvec fit_cvec.
Proof. visit_start visit_cvec. visit_with nat64_good. visit_with nat64_good. visit_with u64_good. visit_with words_good. reflexivity. Qed.
Lemma darray_good : good visit_darray fit_darray.
Proof. visit_start visit_darray. visit_with nat64_good. visit_with (vector_good (signed 8) 0%Z _ i64_good). visit_with (vector_good u16 0%N _ (pod_good 2)). visit_with nats_good. reflexivity. Qed.
Lemma efs_good : good visit_efs fit_efs.
Proof. visit_start visit_efs. visit_with nat8_good. visit_with bv_good. visit_with darray_good. visit_with bv_good. visit_with nat64_good. reflexivity. Qed.
Lemma rsv_good : good visit_rsv fit_rsv.
Proof. visit_start visit_rsv. visit_with bv_good. visit_with words_good. visit_with nats_good. visit_with nats_good. reflexivity. Qed.
Lemma bpv_good : good visit_bpv fit_bpv.
Proof. visit_start visit_bpv. visit_with rsv_good. visit_with nat64_good. visit_with (vector_good (signed 2) 0%Z _ i16_good). visit_with (vector_good (signed 4) 0%Z _ i32_good). reflexivity. Qed.
Lemma dict_good : good visit_dict fit_dict.
Proof. visit_start visit_dict. visit_with nat64_good. visit_with (vector_good (nat_of u32) 0 _ nat32_good). visit_with (vector_good (nat_of u32) 0 _ nat32_good). visit_with (vector_good u8 0%N _ (pod_good 1)). visit_with (vector_good u8 0%N _ (pod_good 1)). reflexivity. Qed.
Lemma idict_good : good visit_idict fit_idict.
Proof. visit_start visit_idict. visit_with nat64_good. visit_with nats_good. visit_with nats_good. visit_with (vector_good u32 0%N _ (pod_good 4)). visit_with (vector_good u8 0%N _ (pod_good 1)). reflexivity. Qed.
Lemma trie_good fresh : good (visit_trie fresh) fit_trie.
Proof. pose proof (vector_good visit_efs fresh _ efs_good) as G. visit_start visit_trie. visit_with nat32_good. visit_with G. visit_with G. visit_with G. visit_with G. reflexivity. Qed.
Lemma ulist_good : good visit_ulist fit_ulist.
Proof. visit_start visit_ulist. visit_with bpv_good. visit_with cvec_good. reflexivity. Qed.
Lemma inv_good : good visit_inv fit_inv.
Proof. visit_start visit_inv. visit_with nat64_good. visit_with nat64_good. visit_with efs_good. visit_with bv_good. reflexivity. Qed.
Lemma fwd_good : good visit_fwd fit_fwd.
Proof. visit_start visit_fwd. visit_with nat64_good. visit_with nat64_good. visit_with efs_good. visit_with cvec_good. reflexivity. Qed.
Lemma binv_good : good visit_binv fit_binv.
Proof.
  visit_start visit_binv. visit_with nat64_good. visit_with nat64_good. visit_with nat64_good. visit_with (vector_good (nat_of u32) 0 _ nat32_good).
  visit_with efs_good. visit_with bv_good. visit_with efs_good. visit_with bv_good. visit_with efs_good. visit_with bv_good. reflexivity.
Qed.
Lemma index1_good fresh : good (visit_index1 fresh) fit1.
Proof. pose proof (trie_good fresh) as G. visit_start visit_index1. visit_with G. visit_with ulist_good. visit_with ulist_good. visit_with dict_good. visit_with inv_good. visit_with fwd_good. reflexivity. Qed.
Lemma index2_good : good visit_index2 fit2.
Proof. visit_start visit_index2. visit_with idict_good. visit_with ulist_good. visit_with ulist_good. visit_with dict_good. visit_with inv_good. visit_with cvec_good. reflexivity. Qed.
Lemma index3_good : good visit_index3 fit3.
Proof. visit_start visit_index3. visit_with idict_good. visit_with ulist_good. visit_with dict_good. visit_with inv_good. visit_with cvec_good. reflexivity. Qed.
Lemma index4_good : good visit_index4 fit4.
Proof. visit_start visit_index4. visit_with idict_good. visit_with ulist_good. visit_with dict_good. visit_with binv_good. visit_with cvec_good. reflexivity. Qed.
