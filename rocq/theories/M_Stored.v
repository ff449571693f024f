(** The indexes as C++ objects: their data members down to the bits, how the builders fill them, and how the query code of
    M_Auto1, M_Auto2, M_Blocked reads them. Only what essentials::save writes (M_Save) needs this view. No proofs. *)
From Coq Require Import ZArith.
From Verif Require Import Base M_Heap M_Iter M_Fc M_IntFc M_Trie M_Containers M_Auto M_Auto1 M_Auto2 M_Blocked.
From Verif Require Import M_Word M_Bits M_Cvec M_Darray M_EfSeq M_CompactEf M_InvIndex M_Rs M_Bp M_Cart M_Real.
Local Open Scope nat_scope.

(** ** Members *)
(** completion_trie.hpp:271-276. *)
Record trie_d := { td_size : nat; td_nodes : list efs; td_ptrs : list efs; td_left : list efs; td_sizes : list efs }.
(** unsorted_list.hpp:132-133 (m_rmq is a cartesian_tree: its only member is a bp_vector, cartesian_tree.hpp:148) = minimal_docids.hpp:114-115. *)
Record ulist_d := { ud_rmq : bpv; ud_list : cvec }.
(** inverted_index.hpp:203-206. *)
Record inv_d := { vd_integers : nat; vd_docs : nat; vd_ptrs : efs; vd_data : bv }.
(** compact_forward_index.hpp:152-155. *)
Record fwd_d := { wd_integers : nat; wd_terms : nat; wd_ptrs : efs; wd_data : cvec }.
(** blocked_inverted_index.hpp:443-454. *)
Record binv_d := { xd_integers : nat; xd_docs : nat; xd_terms_num : nat; xd_blocks : list nat; xd_lists_ptrs : efs; xd_lists : bv; xd_offsets_ptrs : efs; xd_offsets : bv; xd_terms_ptrs : efs; xd_terms : bv }.
(** autocomplete.hpp:158-165. *)
Record index1_d := { d1_comps : trie_d; d1_docs : ulist_d; d1_min : ulist_d; d1_dict : fcd; d1_inv : inv_d; d1_fwd : fwd_d }.
(** autocomplete2.hpp:166-173. *)
Record index2_d := { d2_comps : fcd; d2_docs : ulist_d; d2_min : ulist_d; d2_dict : fcd; d2_inv : inv_d; d2_lexid : cvec }.
(** autocomplete3.hpp:157-162. *)
Record index3_d := { d3_comps : fcd; d3_docs : ulist_d; d3_dict : fcd; d3_inv : inv_d; d3_lexid : cvec }.
(** autocomplete4.hpp:149-154. *)
Record index4_d := { d4_comps : fcd; d4_docs : ulist_d; d4_dict : fcd; d4_inv : binv_d; d4_lexid : cvec }.

(** ** Building *)
(** completion_trie.hpp:129-151, m_size: line 15. *)
Definition ef_build_nat (l : list nat) : res efs := ef_build (map N.of_nat l).
(** As above: completion_trie.hpp:129-151. *)
Definition trie_store_d (size : nat) (ta : trie_arrays) : res trie_d :=
  do nodes <- map_res ef_build (ta_nodes ta);
  do ptrs <- map_res ef_build_nat (ta_ptrs ta);
  do lefts <- map_res ef_build_nat (ta_left ta);
  do sizes <- map_res ef_build_nat (ta_sizes ta);
  Ok {| td_size := size; td_nodes := nodes; td_ptrs := ptrs; td_left := lefts; td_sizes := sizes |}.
(** compact_vector.hpp:226-231, as M_Containers.vec_build. *)
Definition cvec_build_d (l : list N) : res cvec :=
  match l with
  | [] => UB
  | _ => cv_build_width l (ceil_log2 (fold_right N.max 0%N l + 1))
  end.
(** unsorted_list.hpp:14-19 = minimal_docids.hpp:20-25. *)
Definition ulist_build_d (l : list nat) : res ulist_d :=
  do p <- ct_build l;
  do v <- cvec_build_d (map N.of_nat l);
  Ok {| ud_rmq := p; ud_list := v |}.
(** inverted_index.hpp:17-86; the same loop as M_InvIndex.build_records. *)
Definition records_d {X} (write : bvb -> X -> res bvb) (xs : list X) : res (efs * bv) :=
  do (ptrs, b) <- add_records write xs ([0], bvb_empty);
  do e <- ef_build (map N.of_nat (removelast ptrs));
  Ok (e, bv_build b).
(** As above: inverted_index.hpp:17-86. *)
Definition inv_build_d (u : nat) (lists : list (list nat)) : res inv_d :=
  do (e, v) <- records_d (write_list (N.of_nat u)) (map (map N.of_nat) lists);
  Ok {| vd_integers := length (concat lists); vd_docs := u; vd_ptrs := e; vd_data := v |}.
(** compact_forward_index.hpp:13-59. *)
Definition fwd_build_d (num_terms : nat) (lists : list (list N)) : res fwd_d :=
  do d <- cv_build_width (concat lists) (ceil_log2 (N.of_nat num_terms + 1));
  do p <- ef_build (map N.of_nat (fwd_pointers 0 lists));
  Ok {| wd_integers := length (concat lists); wd_terms := num_terms; wd_ptrs := p; wd_data := d |}.
(** blocked_inverted_index.hpp:22-179. *)
Definition bi_build_d (m u : nat) (lists : list (list nat)) : res binv_d :=
  do bs <- split_blocks m lists 1 1 0 [] (repeat [] u);
  do (pl, l) <- records_d (write_docs (N.of_nat u)) (map (map N.of_nat) (map blk_docs bs));
  do (po, o) <- records_d write_offsets (map (map N.of_nat) (map (fun b => offsets_from 0 (blk_sets b)) bs));
  do (pt, t) <- records_d write_terms (map (map N.of_nat) (map (fun b => concat (blk_sets b)) bs));
  Ok {| xd_integers := length (concat lists); xd_docs := u; xd_terms_num := length lists; xd_blocks := map blk_bound bs;
        xd_lists_ptrs := pl; xd_lists := l; xd_offsets_ptrs := po; xd_offsets := o; xd_terms_ptrs := pt; xd_terms := t |}.
(** autocomplete.hpp:19-33. *)
Definition ac1_build_d (f : files) : res index1_d :=
  do ta <- trie_build (f_levels f) (f_mapped f);
  do dict <- fc_build (f_dict f);
  do mins <- minimal_doc_ids (f_inverted f);
  do inv <- inv_build_d (f_universe f) (f_inverted f);
  do fw <- fwd_build_d (length (f_dict f)) (f_forward f);
  do docs <- ulist_build_d (ta_docs ta);
  do minimal <- ulist_build_d mins;
  do tr <- trie_store_d (length (f_mapped f)) ta;
  Ok {| d1_comps := tr; d1_docs := docs; d1_min := minimal; d1_dict := dict; d1_inv := inv; d1_fwd := fw |}.
(** autocomplete2.hpp:22-36, autocomplete3.hpp:31-44, autocomplete4.hpp:25-38, without the inverted index: completions, documents,
    dictionary, docid_to_lexid. *)
Definition core_build_d (f : files) : res (fcd * ulist_d * fcd * cvec) :=
  let n := length (f_mapped f) in
  do cm <- ifc_build (map snd (f_mapped f));
  do m <- ifc_docid_to_lexid (f_universe f) (map fst (f_mapped f));
  do dict <- fc_build (f_dict f);
  do lexid <- cv_build_width (map lexid_word m) (ceil_log2 (N.of_nat n + 1));
  do inv <- invert m n;
  do docs <- ulist_build_d inv;
  Ok (cm, docs, dict, lexid).
(** autocomplete2.hpp:22-36. *)
Definition ac2_build_d (f : files) : res index2_d :=
  do (cm, docs, dict, lexid) <- core_build_d f;
  do mins <- minimal_doc_ids (f_inverted f);
  do inv <- inv_build_d (f_universe f) (f_inverted f);
  do minimal <- ulist_build_d mins;
  Ok {| d2_comps := cm; d2_docs := docs; d2_min := minimal; d2_dict := dict; d2_inv := inv; d2_lexid := lexid |}.
(** autocomplete3.hpp:31-44. *)
Definition ac3_build_d (f : files) : res index3_d :=
  do (cm, docs, dict, lexid) <- core_build_d f;
  do inv <- inv_build_d (f_universe f) (f_inverted f);
  Ok {| d3_comps := cm; d3_docs := docs; d3_dict := dict; d3_inv := inv; d3_lexid := lexid |}.
(** autocomplete4.hpp:25-38. *)
Definition ac4_build_d (m : nat) (f : files) : res index4_d :=
  do (cm, docs, dict, lexid) <- core_build_d f;
  do ii <- bi_build_d m (f_universe f) (f_inverted f);
  Ok {| d4_comps := cm; d4_docs := docs; d4_dict := dict; d4_inv := ii; d4_lexid := lexid |}.

(** ** Reading: the objects as the query code sees them *)
(** ef_sequence: M_EfSeq.ef_seqc (ef/ef_sequence.hpp:135-186). *)
Definition seqc_of (e : efs) : seqc := {| q_size := ef_size e; q_acc := ef_access e; q_itr := ef_iterate e |}.
(** inverted_index.hpp:205-206. *)
Definition records_of (e : efs) (v : bv) : records := {| r_ptrs := seqc_of e; r_data := v |}.
(** completion_trie.hpp:271-276; m_size is not read by queries. *)
Definition trie_of (d : trie_d) : trie :=
  {| tr_nodes := map seqc_of (td_nodes d); tr_ptrs := map seqc_of (td_ptrs d); tr_left := map seqc_of (td_left d); tr_sizes := map seqc_of (td_sizes d) |}.
Section Views.
  Variable tail : N.
  Variable heap : forall A, heap_ops A.
  Variable sort : list ceit -> list ceit.
  Variable bsort : forall A : Type, (A -> nat) -> list A -> list A.
  Let K := real_containers tail heap sort.
  Let KB := real_bcontainers tail heap sort bsort.

  (** unsorted_list.hpp:132-133 = minimal_docids.hpp:114-115. *)
  Definition ulist_of (d : ulist_d) : ulist :=
    {| ul_acc := vec_nat (cv_access (ud_list d) tail); ul_size := cv_size (ud_list d); ul_rmq := ct_rmq (ud_rmq d) |}.
  (** inverted_index.hpp:98-105. *)
  Definition inv_of (d : inv_d) : nat -> res ceit :=
    inv_iterator tail {| ii_docs := N.of_nat (vd_docs d); ii_lists := records_of (vd_ptrs d) (vd_data d) |}.
  (** compact_forward_index.hpp:152-155. *)
  Definition fwd_of (d : fwd_d) : M_Containers.fwd := {| fw_ptrs := seqc_of (wd_ptrs d); fw_data := cv_access (wd_data d) tail |}.
  (** blocked_inverted_index.hpp:399-426, as M_Real.real_bcontainers. *)
  Definition binv_of (d : binv_d) : bindex KB := {|
    bi_docs_num := xd_docs d;
    bi_bounds := xd_blocks d;
    bi_lists := docs_iterator tail (N.of_nat (xd_docs d)) (records_of (xd_lists_ptrs d) (xd_lists d)) : nat -> res (k_It KB);
    bi_offsets := (fun b => do it <- offsets_iterator tail (records_of (xd_offsets_ptrs d) (xd_offsets d)) b; Ok (offset_at it));
    bi_terms := (fun b => do (base, w) <- terms_getter (records_of (xd_terms_ptrs d) (xd_terms d)) b;
                          Ok (fun i => do v <- getter_access (v_words (xd_terms d)) base w i; Ok (N.to_nat v))) |}.
  (** The four index types (autocomplete.hpp:159-165). *)
  Definition index1_of (d : index1_d) : index1 K := {|
    a1_completions := trie_of (d1_comps d); a1_docs := ulist_of (d1_docs d); a1_minimal := ulist_of (d1_min d); a1_dict := d1_dict d;
    a1_inverted := inv_of (d1_inv d) : nat -> res (k_It K); a1_universe := vd_docs (d1_inv d); a1_forward := fwd_of (d1_fwd d) |}.
  (** autocomplete2.hpp:167-173. *)
  Definition core_of (cm : fcd) (docs : ulist_d) (dict : fcd) (lexid : cvec) : core :=
    {| co_comps := cm; co_docs := ulist_of docs; co_dict := dict; co_lexid := cv_access lexid tail |}.
  (** autocomplete2.hpp:167-173. *)
  Definition index2_of (d : index2_d) : index2 K := {|
    a2_core := core_of (d2_comps d) (d2_docs d) (d2_dict d) (d2_lexid d); a2_minimal := ulist_of (d2_min d);
    a2_inverted := inv_of (d2_inv d) : nat -> res (k_It K); a2_universe := vd_docs (d2_inv d) |}.
  (** autocomplete3.hpp:158-162. *)
  Definition index3_of (d : index3_d) : index3 K := {|
    a3_core := core_of (d3_comps d) (d3_docs d) (d3_dict d) (d3_lexid d);
    a3_inverted := inv_of (d3_inv d) : nat -> res (k_It K); a3_universe := vd_docs (d3_inv d) |}.
  (** autocomplete4.hpp:150-154. *)
  Definition index4_of (d : index4_d) : index4 KB := {|
    a4_core := core_of (d4_comps d) (d4_docs d) (d4_dict d) (d4_lexid d); a4_inverted := binv_of (d4_inv d) |}.
End Views.
