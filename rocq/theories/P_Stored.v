(** The indexes built as objects (M_Stored) are the indexes of M_Auto1, M_Auto2, M_Blocked. *)
From Coq Require Import ZArith Lia.
From Verif Require Import Base M_Heap M_Iter M_Fc M_IntFc M_Trie M_Containers M_Auto M_Auto1 M_Auto2 M_Blocked.
From Verif Require Import M_Word M_Bits M_Cvec M_Darray M_EfSeq M_CompactEf M_InvIndex M_Rs M_Bp M_Cart M_Real M_Stored.
Local Open Scope nat_scope.

Lemma map_res_view {A B C} (f : A -> res B) (g : A -> res C) (v : B -> C) :
  (forall x, g x = do y <- f x; Ok (v y)) -> forall l, map_res g l = do ys <- map_res f l; Ok (map v ys).
Proof.
  intros H l. induction l as [|x l IH]; [reflexivity|]. cbn [map_res]. rewrite H. destruct (f x); try reflexivity. cbn [bind].
  rewrite IH. now destruct (map_res f l).
Qed.
Lemma cvb_fill_size l : forall b b', cvb_fill b l = Ok b' -> cb_size b' = cb_size b.
Proof.
  induction l as [|v l IH]; intros b b' H; [now injection H as <-|]. cbn [cvb_fill] in H.
  destruct (cvb_push b v) as [b1| | |] eqn:E; try discriminate H. rewrite (IH _ _ H). clear IH H.
  unfold cvb_push in E.
  repeat match type of E with
  | bind ?e _ = _ => destruct e as [?| | |]; try discriminate E; cbn [bind] in E
  end.
  match goal with p : (list N * nat * nat)%type |- _ => destruct p as [[ws bl] sh] end. destruct (sh =? 64); now injection E as <-.
Qed.
Lemma cv_build_size l w v : cv_build_width l w = Ok v -> cv_size v = length l.
Proof.
  unfold cv_build_width, cvb_new. destruct (mask_of w); try discriminate. cbn [bind]. destruct ((w =? 0) || (64 <? w)); [discriminate|]. cbn [bind].
  destruct (cvb_fill _ l) as [b| | |] eqn:E; try discriminate. intros H. injection H as <-. cbn [cvb_build cv_size]. now rewrite (cvb_fill_size _ _ _ E).
Qed.
Lemma records_view {X} (write : bvb -> X -> res bvb) xs : build_records write xs = do (e, v) <- records_d write xs; Ok (records_of e v).
Proof.
  unfold build_records, records_d. destruct (add_records write xs ([0], bvb_empty)) as [[ptrs b]| | |]; try reflexivity. cbn [bind].
  unfold ef_seqc. now destruct (ef_build _).
Qed.

Section Views.
  Variable tail : N.
  Variable heap : forall A, heap_ops A.
  Variable sort : list ceit -> list ceit.
  Variable bsort : forall A : Type, (A -> nat) -> list A -> list A.
  Let K := real_containers tail heap sort.
  Let KB := real_bcontainers tail heap sort bsort.

  Lemma ulist_view l : ulist_build K l = do d <- ulist_build_d l; Ok (ulist_of tail d).
  Proof.
    unfold ulist_build, ulist_build_d. cbn [K k_rmq real_containers]. unfold real_rmq. destruct (ct_build l); try reflexivity. cbn [bind].
    unfold vec_build, cvec_build_d. destruct l as [|x l]; [reflexivity|]. cbn [map].
    cbn [K k_vec real_containers]. destruct (cv_build_width _ _) as [v| | |] eqn:E; try reflexivity. cbn [bind].
    apply cv_build_size in E. unfold ulist_of. cbn [ud_list ud_rmq]. rewrite E. cbn [length]. now rewrite map_length.
  Qed.
  Lemma trie_view n ta : trie_store K ta = do d <- trie_store_d n ta; Ok (trie_of d).
  Proof.
    unfold trie_store, trie_store_d. cbn [K k_seq real_containers].
    rewrite (map_res_view ef_build ef_seqc seqc_of) by reflexivity. destruct (map_res ef_build (ta_nodes ta)); try reflexivity. cbn [bind].
    assert (V : forall l, map_res (fun l => ef_seqc (map N.of_nat l)) l = do ys <- map_res ef_build_nat l; Ok (map seqc_of ys)).
    { apply map_res_view. reflexivity. }
    rewrite V. destruct (map_res ef_build_nat (ta_ptrs ta)); try reflexivity. cbn [bind].
    rewrite V. destruct (map_res ef_build_nat (ta_left ta)); try reflexivity. cbn [bind].
    rewrite V. destruct (map_res ef_build_nat (ta_sizes ta)); reflexivity.
  Qed.
  Lemma inv_view u ls : k_lists K u ls = do d <- inv_build_d u ls; Ok (inv_of tail d).
  Proof.
    cbn [K k_lists real_containers]. unfold inv_build, inv_build_d. rewrite records_view.
    now destruct (records_d _ _) as [[e v]| | |].
  Qed.
  Lemma fwd_view n ls : fwd_build K n ls = do d <- fwd_build_d n ls; Ok (fwd_of tail d).
  Proof.
    unfold fwd_build, fwd_build_d. cbn [K k_vec k_seq real_containers]. destruct (cv_build_width _ _); try reflexivity. cbn [bind].
    unfold ef_seqc. now destruct (ef_build _).
  Qed.
  Lemma binv_view m u ls : bi_build KB m u ls = do d <- bi_build_d m u ls; Ok (binv_of tail heap sort bsort d).
  Proof.
    unfold bi_build, bi_build_d. destruct (split_blocks _ _ _ _ _ _ _) as [bs| | |]; try reflexivity. cbn [bind].
    cbn [KB b_lists b_offsets b_terms real_bcontainers]. rewrite !records_view.
    destruct (records_d (write_docs _) _) as [[pl l]| | |]; try reflexivity. cbn [bind].
    destruct (records_d write_offsets _) as [[po o]| | |]; try reflexivity. cbn [bind].
    destruct (records_d write_terms _) as [[pt t]| | |]; reflexivity.
  Qed.
  Lemma index1_view f : ac1_build K f = do d <- ac1_build_d f; Ok (index1_of tail heap sort d).
  Proof.
    unfold ac1_build, ac1_build_d. destruct (trie_build _ _) as [ta| | |]; try reflexivity. cbn [bind].
    destruct (fc_build _); try reflexivity. cbn [bind]. destruct (minimal_doc_ids _) as [mins| | |]; try reflexivity. cbn [bind].
    rewrite inv_view. destruct (inv_build_d _ _) as [d| | |] eqn:Ei; try reflexivity. cbn [bind].
    rewrite fwd_view. destruct (fwd_build_d _ _); try reflexivity. cbn [bind].
    rewrite ulist_view. destruct (ulist_build_d (ta_docs ta)); try reflexivity. cbn [bind].
    rewrite ulist_view. destruct (ulist_build_d mins); try reflexivity. cbn [bind].
    rewrite (trie_view (length (f_mapped f))). destruct (trie_store_d _ _); try reflexivity. cbn [bind].
    unfold index1_of. cbn [d1_comps d1_docs d1_min d1_dict d1_inv d1_fwd].
    replace (vd_docs d) with (f_universe f); [reflexivity|].
    unfold inv_build_d in Ei. destruct (records_d _ _) as [[? ?]| | |]; try discriminate Ei. now injection Ei as <-.
  Qed.
  Lemma core_view f : core_build K f = do (cm, docs, dict, lexid) <- core_build_d f; Ok (core_of tail cm docs dict lexid).
  Proof.
    unfold core_build, core_build_d. destruct (ifc_build _); try reflexivity. cbn [bind].
    destruct (ifc_docid_to_lexid _ _); try reflexivity. cbn [bind]. destruct (fc_build _); try reflexivity. cbn [bind].
    cbn [K k_vec real_containers]. destruct (cv_build_width _ _); try reflexivity. cbn [bind]. destruct (invert _ _); try reflexivity. cbn [bind].
    rewrite ulist_view. now destruct (ulist_build_d _).
  Qed.
  Lemma inv_d_docs u ls d : inv_build_d u ls = Ok d -> vd_docs d = u.
  Proof. unfold inv_build_d. destruct (records_d _ _) as [[? ?]| | |]; try discriminate. intros H. now injection H as <-. Qed.
  Lemma index2_view f : ac2_build K f = do d <- ac2_build_d f; Ok (index2_of tail heap sort d).
  Proof.
    unfold ac2_build, ac2_build_d. rewrite core_view. destruct (core_build_d f) as [[[[cm docs] dict] lexid]| | |]; try reflexivity. cbn [bind].
    destruct (minimal_doc_ids _) as [mins| | |]; try reflexivity. cbn [bind].
    rewrite inv_view. destruct (inv_build_d _ _) as [d| | |] eqn:Ei; try reflexivity. cbn [bind].
    rewrite ulist_view. destruct (ulist_build_d mins); try reflexivity. cbn [bind].
    unfold index2_of. cbn [d2_comps d2_docs d2_min d2_dict d2_inv d2_lexid]. now rewrite (inv_d_docs _ _ _ Ei).
  Qed.
  Lemma index3_view f : ac3_build K f = do d <- ac3_build_d f; Ok (index3_of tail heap sort d).
  Proof.
    unfold ac3_build, ac3_build_d. rewrite core_view. destruct (core_build_d f) as [[[[cm docs] dict] lexid]| | |]; try reflexivity. cbn [bind].
    rewrite inv_view. destruct (inv_build_d _ _) as [d| | |] eqn:Ei; try reflexivity. cbn [bind].
    unfold index3_of. cbn [d3_comps d3_docs d3_dict d3_inv d3_lexid]. now rewrite (inv_d_docs _ _ _ Ei).
  Qed.
  Lemma index4_view m f : ac4_build KB m f = do d <- ac4_build_d m f; Ok (index4_of tail heap sort bsort d).
  Proof.
    unfold ac4_build, ac4_build_d. change (core_build KB f) with (core_build K f). rewrite core_view.
    destruct (core_build_d f) as [[[[cm docs] dict] lexid]| | |]; try reflexivity. cbn [bind].
    rewrite binv_view. now destruct (bi_build_d _ _ _).
  Qed.
End Views.
