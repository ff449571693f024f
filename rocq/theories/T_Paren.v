(** C52: matching and enclosing parentheses. *)
From Coq Require Import ZArith.
From Verif Require Import Base S_Bits S_Paren M_Word M_Bits P_BitsHist P_BpBuild M_Bp M_Paren P_ParenSpec.
Local Open Scope nat_scope.

(** Built on a bit vector with any legal history, with or without hints, of fewer than 2^31 - 127 bits (the excess is an int32_t): find_close
    returns the closing parenthesis of an opening one, find_open the opening parenthesis of a closing one, and enclose the opening parenthesis of
    the innermost pair around an opening one; the whole sequence does not need to be balanced. Partial: [wide] is what a shift by 64 yields. If it
    is not undefined, nothing more is needed; if it is, the positions where the code shifts by 64 have to be excluded. *)
Theorem C52_parentheses_partial : forall os b hints hints0, bops_legal [] os -> bvb_ops bvb_empty os = Ok b ->
  let l := bops_meaning [] os in
  l <> [] -> (Z.of_nat (length l) <= 2147483520)%Z ->
  exists v, bp_build (bv_build b) hints hints0 = Ok v /\
    (forall wide p q, matching l p q -> (p + 1) mod 64 <> 0 \/ (exists u, wide = Ok u) -> find_close wide v p = Ok (Some q)) /\
    (forall wide p q, matching l p q -> q mod 64 <> 0 \/ (exists u, wide = Ok u) -> find_open wide v q = Ok (Some p)) /\
    (forall wide p pos, encloses l p pos -> nth pos l false = true -> pos mod 64 <> 0 \/ (exists u, wide = Ok u) -> enclose wide v pos = Ok (Some p)).
Proof.
  intros os b h h0 L E l Hne Hsz. destruct (paren_build os b h h0 L E Hne Hsz) as (v & Ev & Hv & Hw & Hb). exists v. split; [exact Ev|].
  destruct (parens_all v _ Hv Hw Hb) as [H1 H2]. split; [|split; [|exact H2]]; intros wide p q M; apply (H1 wide p q M).
Qed.
Print Assumptions C52_parentheses_partial.

(** In a balanced sequence every opening parenthesis has exactly one closing one and every closing parenthesis exactly one opening one. *)
Theorem C52_partners : forall l,
  (balanced l -> forall p, nth_error l p = Some true -> exists q, matching l p q) /\
  (balanced l -> forall q, nth_error l q = Some false -> exists p, matching l p q) /\
  (forall p q q', matching l p q -> matching l p q' -> q = q') /\
  (forall p p' q, matching l p q -> matching l p' q -> p = p').
Proof.
  intros l. split; [|split; [|split]].
  - intros H p Hp. apply (balanced_close l H). now apply nth_error_nth.
  - intros H q Hq. apply (balanced_open l H). now apply nth_error_nth.
  - exact (matching_unique l).
  - exact (matching_unique_open l).
Qed.
Print Assumptions C52_partners.

(** In a balanced sequence an opening parenthesis is inside of no pair, or there is an innermost pair around it. *)
Theorem C52_enclosed : forall l, balanced l -> forall pos, nth_error l pos = Some true ->
  (exists p, encloses l p pos) \/ forall p q, matching l p q -> p < pos < q -> False.
Proof. intros l H pos Hp. apply (balanced_enclosed l H). now apply nth_error_nth. Qed.
Print Assumptions C52_enclosed.

(** bp_vector_support.hpp:194, 262: the matching parenthesis of the last bit of a word, and the one of the first bit of a word, are found by
    shifting by 64, which has no defined result. *)
Theorem C52_parentheses_refuted : exists os b v, bops_legal [] os /\ bvb_ops bvb_empty os = Ok b /\ bp_build (bv_build b) false false = Ok v /\
  let l := bops_meaning [] os in
  balanced l /\ matching l 63 64 /\ find_close UB v 63 = UB /\ find_open UB v 64 = UB /\
  (forall u, find_close (Ok u) v 63 = Ok (Some 64) /\ find_open (Ok u) v 64 = Ok (Some 63)).
Proof.
  pose (os := [AppendBits 18446744073709551615 64; ZeroExtend 64]).
  assert (L : bops_legal [] os) by (cbn; repeat split; lia). destruct (bvb_ops bvb_empty os) as [b| | |] eqn:E; [|vm_compute in E; discriminate E..].
  destruct (paren_build os b false false L E) as (v & Ev & Hv & Hw & Hb); [vm_compute; discriminate|vm_compute; discriminate|].
  exists os, b, v. split; [exact L|]. split; [exact E|]. split; [exact Ev|]. cbv zeta.
  assert (Hl : bops_meaning [] os = repeat true 64 ++ repeat false 64) by (vm_compute; reflexivity).
  assert (Hbal : forall n, balanced (repeat true n ++ repeat false n)).
  { induction n as [|n IH]; [constructor|]. replace (repeat true (S n) ++ repeat false (S n)) with (true :: (repeat true n ++ repeat false n) ++ false :: []); [now constructor; [|constructor]|].
    cbn [repeat app]. rewrite <- app_assoc. do 2 f_equal. clear. induction n as [|n IH]; [reflexivity|]. cbn [repeat app]. now rewrite IH. }
  assert (M : matching (bops_meaning [] os) 63 64). { exists (repeat true 63), [], (repeat false 63). split; [rewrite Hl; reflexivity|]. split; [constructor|]. split; reflexivity. }
  split; [rewrite Hl; apply Hbal|]. split; [exact M|]. destruct (parens_all v _ Hv Hw Hb) as [H _].
  split; [|split; [|intros u; destruct (H (Ok u) 63 64 M) as [H1 H2]; split; [apply H1|apply H2]; right; now exists u]].
  - clear H Hv Hw Hb. vm_compute in E. injection E as <-. vm_compute in Ev. injection Ev as <-. vm_compute. reflexivity.
  - clear H Hv Hw Hb. vm_compute in E. injection E as <-. vm_compute in Ev. injection Ev as <-. vm_compute. reflexivity.
Qed.
Print Assumptions C52_parentheses_refuted.

(** 70 groups of 60 nested pairs inside of one pair, 8402 bits: two superblocks, so that the partner is found by the search in the tree. *)
Example C52_nonvacuous :
  let os := Push true :: concat (repeat [AppendBits 1152921504606846975 60; ZeroExtend 60] 70) ++ [Push false] in
  let last := 70 * 120 + 1 in
  let group := 40 * 120 + 1 in
  bops_legal [] os /\ balanced (bops_meaning [] os) /\ matching (bops_meaning [] os) 0 last /\ encloses (bops_meaning [] os) 0 group /\
  exists b, bvb_ops bvb_empty os = Ok b /\
    (do v <- bp_build (bv_build b) false false;
     do c <- find_close UB v 0; do o <- find_open UB v last; do e <- enclose UB v group; do c1 <- find_close UB v group;
     Ok (length (bp_tree v), (c, o), (e, c1))) = Ok (4, (Some last, Some 0), (Some 0, Some (group + 119))).
Proof.
  intros os last group. pose (m := concat (repeat (repeat true 60 ++ repeat false 60) 70)).
  assert (Hl : bops_meaning [] os = true :: m ++ false :: []) by (vm_compute; reflexivity).
  assert (App : forall x, balanced x -> forall y, balanced y -> balanced (x ++ y)).
  { induction 1 as [|x y Hx _ Hy IHy]; intros z Hz; [exact Hz|]. cbn [app]. rewrite <- app_assoc. cbn [app]. constructor; [exact Hx|now apply IHy]. }
  assert (Hbal : forall n, balanced (repeat true n ++ repeat false n)).
  { induction n as [|n IH]; [constructor|]. replace (repeat true (S n) ++ repeat false (S n)) with (true :: (repeat true n ++ repeat false n) ++ false :: []); [now constructor; [|constructor]|].
    cbn [repeat app]. rewrite <- app_assoc. do 2 f_equal. clear. induction n as [|n IH]; [reflexivity|]. cbn [repeat app]. now rewrite IH. }
  assert (Hm : balanced m). { unfold m. clear -App Hbal. generalize 70. induction n as [|n IH]; [constructor|]. cbn [repeat concat]. apply App; [exact (Hbal 60)|exact IH]. }
  assert (M : matching (bops_meaning [] os) 0 last). { exists [], m, []. split; [exact Hl|]. split; [exact Hm|]. split; vm_compute; reflexivity. }
  split; [cbn; repeat split; lia|]. split; [rewrite Hl; constructor; [exact Hm|constructor]|]. split; [exact M|]. split; [apply (enclosed_at _ 0 last); [exact M|unfold last, group; lia|vm_compute; reflexivity]|].
  eexists. split; [vm_compute; reflexivity|vm_compute; reflexivity].
Qed.
