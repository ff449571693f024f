(** C27, continued: append, resize, and the other ways of reading a bit vector. *)
From Verif Require Import Base M_Word S_Bits P_Word M_Bits P_Bits P_Rank P_BitsRead P_BitsIter P_BitsHist P_BitsAppend.
Local Open Scope nat_scope.

(** Appending one builder to another, each with any history; the result can be used further, and has the bits of both. *)
Theorem C27_append : forall os os' b b', bops_legal [] os -> bops_legal [] os' -> bvb_ops bvb_empty os = Ok b -> bvb_ops bvb_empty os' = Ok b' ->
  let l := bops_meaning [] os ++ bops_meaning [] os' in
  exists a, bvb_append b b' = Ok a /\ forall more, bops_legal l more ->
    exists e, bvb_ops a more = Ok e /\ b_size e = length (bops_meaning l more) /\
      forall i, i < b_size e -> bv_get (bv_build e) i = Ok (nth i (bops_meaning l more) false).
Proof.
  intros os os' b b' L L' E E' l. destruct (append_ok b b' _ _ (ok_after os b L E) (ok_after os' b' L' E')) as (a & Ea & Ha). exists a. split; [exact Ea|].
  intros more Lm. destruct (bvb_ops_ok more a _ Ha Lm) as (e & Ee & [Hr Hs _]). exists e. split; [exact Ee|]. split; [exact Hs|].
  intros i Hi. apply (get_list (bv_build e) _ i Hr). now rewrite <- Hs.
Qed.

(** resize to fewer bits does not clear the bits beyond: they come back. *)
Theorem C27_resize_refuted : exists b, bvb_ops bvb_empty [Push true; Push true; Push true] = Ok b /\
  let b' := bvb_zero_extend (bvb_resize b 1) 2 in b_size b' = 3 /\ bv_get (bv_build b') 1 = Ok true.
Proof. eexists. split; [vm_compute; reflexivity|]. split; reflexivity. Qed.
(** push_back after resize writes through a pointer that resize did not set. *)
Theorem C27_resize_push_refuted : bvb_push (bvb_resize bvb_empty 70) true = UB.
Proof. reflexivity. Qed.

(** predecessor1(pos): the last one at or before pos. *)
Theorem C27_predecessor1 : forall os b pos p fuel, bops_legal [] os -> bvb_ops bvb_empty os = Ok b ->
  pos < b_size b -> p <= pos -> nth_error (bops_meaning [] os) p = Some true ->
  (forall j, p < j <= pos -> nth_error (bops_meaning [] os) j = Some false) -> pos < fuel ->
  predecessor1 (b_words b) fuel pos = Ok p.
Proof.
  intros os b pos p fuel L E Hp. destruct (ok_after os b L E) as [Hr Hs _]. rewrite Hs in Hp. exact (predecessor1_list _ _ pos p fuel Hr Hp).
Qed.

(** get_word64(pos): the next 64 bits, zeros after the end. *)
Theorem C27_word64 : forall os b pos, bops_legal [] os -> bvb_ops bvb_empty os = Ok b -> pos < b_size b ->
  get_word64 (b_words b) pos = Ok (number (firstn 64 (skipn pos (bops_meaning [] os)))).
Proof. intros os b pos L E Hp. destruct (ok_after os b L E) as [Hr Hs _]. rewrite Hs in Hp. exact (get_word64_list _ _ pos Hr Hp). Qed.

(** get_word56(pos): the low 57 bits are those of the vector, whatever memory follows it (the load itself may lie outside:
    C27_word56_refuted). *)
Theorem C27_word56_partial : forall os b tail pos len, bops_legal [] os -> bvb_ops bvb_empty os = Ok b ->
  (tail < 2 ^ 64)%N -> len <= 57 -> pos + len <= b_size b ->
  exists r, get_word56 (b_words b) tail pos = Ok r /\ (r mod 2 ^ N.of_nat len)%N = number (firstn len (skipn pos (bops_meaning [] os))).
Proof. intros os b tail pos len L E Ht Hl Hp. destruct (ok_after os b L E) as [Hr Hs _]. rewrite Hs in Hp. exact (get_word56_list _ _ tail pos len Hr Ht Hl Hp). Qed.

(** bits_getter: the i-th field of the given width from base on. *)
Theorem C27_getter_partial : forall os b base width i, bops_legal [] os -> bvb_ops bvb_empty os = Ok b ->
  1 <= width < 64 -> base + i * width + width <= b_size b ->
  getter_access (b_words b) base width i = Ok (number (firstn width (skipn (base + i * width) (bops_meaning [] os)))).
Proof. intros os b base width i L E Hw Hp. destruct (ok_after os b L E) as [Hr Hs _]. rewrite Hs in Hp. exact (getter_list _ _ base width i Hr Hw Hp). Qed.

(** unary_iterator: skip(k) and skip0(k) from pos stop at the k-th one (zero) from there on; next() then enumerates the ones
    from that position on. *)
Theorem C27_skip : forall os b pos k p fuel, bops_legal [] os -> bvb_ops bvb_empty os = Ok b -> pos < b_size b -> pos <= p ->
  is_select true (skipn pos (bops_meaning [] os)) k (p - pos) -> b_size b < fuel ->
  exists u u', ui_new (b_words b) pos = Ok u /\ ui_skip (b_words b) fuel u k = Ok u' /\ u_pos u' = p /\
    forall n, n <= length (ones_from (bops_meaning [] os) p) -> ui_take (b_words b) fuel u' n = Ok (firstn n (ones_from (bops_meaning [] os) p)).
Proof.
  intros os b pos k p fuel L E Hp Hle Hs Hf. destruct (ok_after os b L E) as [Hr Hs' _]. rewrite Hs' in Hp, Hf.
  apply (skip_list _ _ pos k p fuel Hr Hp Hle Hs). rewrite (repr_len _ _ Hr). pose proof (words_for_bound (length (bops_meaning [] os))). lia.
Qed.
Theorem C27_skip0 : forall os b pos k p fuel, bops_legal [] os -> bvb_ops bvb_empty os = Ok b -> pos < b_size b -> pos <= p ->
  is_select false (skipn pos (bops_meaning [] os)) k (p - pos) -> b_size b < fuel ->
  exists u u', ui_new (b_words b) pos = Ok u /\ ui_skip0 (b_words b) fuel u k = Ok u' /\ u_pos u' = p /\
    forall n, n <= length (ones_from (bops_meaning [] os) p) -> ui_take (b_words b) fuel u' n = Ok (firstn n (ones_from (bops_meaning [] os) p)).
Proof.
  intros os b pos k p fuel L E Hp Hle Hs Hf. destruct (ok_after os b L E) as [Hr Hs' _]. rewrite Hs' in Hp, Hf.
  apply (skip0_list _ _ pos k p fuel Hr Hp Hle Hs). rewrite (repr_len _ _ Hr). pose proof (words_for_bound (length (bops_meaning [] os))). lia.
Qed.

Print Assumptions C27_append.
Print Assumptions C27_resize_refuted.
Print Assumptions C27_resize_push_refuted.
Print Assumptions C27_predecessor1.
Print Assumptions C27_word64.
Print Assumptions C27_word56_partial.
Print Assumptions C27_getter_partial.
Print Assumptions C27_skip.
Print Assumptions C27_skip0.

Definition more_ops : list bop := [ZeroExtend 40; AppendBits 5 3; ZeroExtend 90; Push true].
Example C27_nonvacuous2 : bops_legal [] more_ops /\
  match bvb_ops bvb_empty more_ops with
  | Ok b =>
      match bvb_append b b with Ok a => b_size a = 268 /\ bv_get (bv_build a) (134 + 42) = Ok true /\ bv_get (bv_build a) (134 + 41) = Ok false | _ => False end /\
      predecessor1 (b_words b) 200 132 = Ok 42 /\ is_select true (skipn 41 (bops_meaning [] more_ops)) 1 (133 - 41) /\
      is_select false (skipn 41 (bops_meaning [] more_ops)) 1 (43 - 41)
  | _ => False
  end.
Proof. split; [cbn; repeat split; lia|]. vm_compute. repeat split; reflexivity. Qed.
