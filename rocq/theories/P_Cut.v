(** Loading a file that is cut: undefined, unless only elements of the last vector are missing. *)
From Coq Require Import ZArith Lia.
From Verif Require Import Base M_Fc M_Word M_Bits P_Bits M_Cvec M_Darray M_EfSeq M_Rs M_Bp M_Stored M_Save P_Save S_Cut.
Local Open Scope nat_scope.

(** [x] written completely is read completely; cut, it is read to the end of the file. *)
Definition full {A} (c : codec A) (x : A) : Prop := forall x0 f, exists x', load c x0 (save c x ++ f) = Ok (x', f).
Definition at_end {A} (c : codec A) (f : list N) : Prop := forall x0, load c x0 f = UB \/ exists x', load c x0 f = Ok (x', []).
Definition short {A} (c : codec A) (x : A) : Prop := forall n, n < length (save c x) -> at_end c (firstn n (save c x)).
Definition ends {A} (c : codec A) : Prop := at_end c [].
Definition dry {A} (c : codec A) : Prop := forall x0, load c x0 [] = UB.
Record cuts {A} (c : codec A) (x : A) : Prop := { cu_full : full c x; cu_short : short c x; cu_ends : ends c }.

Lemma dry_ends {A} (c : codec A) : dry c -> ends c.
Proof. intros H x0. left. apply H. Qed.
Lemma pod_ends n : ends (pod n).
Proof.
  intros x0. right. cbn [pod load]. destruct (length (@nil N) <? n); [eexists; reflexivity|]. rewrite skipn_nil. eexists. reflexivity.
Qed.
Lemma pod_cuts n x : cuts (pod n) x.
Proof.
  split; [| |apply pod_ends].
  - intros x0 f. cbn [pod load save]. pose proof (le_bytes_length n x) as L. rewrite app_length, L. destruct (Nat.ltb_spec (n + length f) n); [lia|].
    rewrite skipn_app, L, Nat.sub_diag, skipn_all2 by lia. eexists. reflexivity.
  - intros m Hm x0. right. cbn [pod load save] in *. rewrite firstn_length. rewrite le_bytes_length in *. destruct (Nat.ltb_spec (Nat.min m n) n); [|lia]. eexists. reflexivity.
Qed.
Lemma convert_cuts {A B} (c : codec A) (to : B -> A) from x : cuts c (to x) -> cuts (convert c to from) x.
Proof.
  intros [F S E]. split.
  - intros x0 f. cbn [convert load save]. destruct (F (to x0) f) as (y & ->). eexists. reflexivity.
  - intros n Hn x0. cbn [convert load save] in *. destruct (S n Hn (to x0)) as [-> |(y & ->)]; [now left|right; eexists; reflexivity].
  - intros x0. cbn [convert load]. destruct (E (to x0)) as [-> |(y & ->)]; [now left|right; eexists; reflexivity].
Qed.
Lemma member_cuts {S A} (c : codec A) (get : S -> A) set x : cuts c (get x) -> cuts (member c get set) x.
Proof.
  intros [F S' E]. split.
  - intros x0 f. cbn [member load save]. destruct (F (get x0) f) as (y & ->). eexists. reflexivity.
  - intros n Hn x0. cbn [member load save] in *. destruct (S' n Hn (get x0)) as [-> |(y & ->)]; [now left|right; eexists; reflexivity].
  - intros x0. cbn [member load]. destruct (E (get x0)) as [-> |(y & ->)]; [now left|right; eexists; reflexivity].
Qed.
Lemma nothing_cuts {S} (x : S) : cuts nothing x.
Proof.
  split.
  - intros x0 f. eexists. reflexivity.
  - intros n Hn. cbn in Hn. lia.
  - intros x0. right. eexists. reflexivity.
Qed.
Lemma firstn_past {A} n (l l' : list A) : length l <= n -> firstn n (l ++ l') = l ++ firstn (n - length l) l'.
Proof. intros H. rewrite firstn_app, (firstn_all2 l) by exact H. reflexivity. Qed.
Lemma next_cuts {S} (c c' : codec S) x : cuts c x -> cuts c' x -> cuts (next c c') x.
Proof.
  intros [F S1 E] [F' S' E']. split.
  - intros x0 f. cbn [next load save]. rewrite <- app_assoc. destruct (F x0 (save c' x ++ f)) as (y & ->). cbn [bind]. apply F'.
  - intros n Hn x0. cbn [next load save] in *. destruct (Nat.lt_ge_cases n (length (save c x))) as [H|H].
    + rewrite firstn_app. replace (n - length (save c x)) with 0 by lia. cbn [firstn]. rewrite app_nil_r.
      destruct (S1 n H x0) as [-> |(y & ->)]; [now left|]. cbn [bind]. apply E'.
    + rewrite firstn_past by exact H. destruct (F x0 (firstn (n - length (save c x)) (save c' x))) as (y & ->). cbn [bind]. apply S'. rewrite app_length in Hn. lia.
  - intros x0. cbn [next load]. destruct (E x0) as [-> |(y & ->)]; [now left|]. cbn [bind]. apply E'.
Qed.
Lemma vector_dry {A} (c : codec A) fresh : dry (vector c fresh).
Proof. intros x0. reflexivity. Qed.
Lemma each_full {A} (c : codec A) : forall l, Forall (cuts c) l -> forall olds f, length olds = length l ->
  exists l', load_each c olds (flat_map (save c) l ++ f) = Ok (l', f).
Proof.
  induction 1 as [|x l [F _ _] _ IH]; intros [|o olds] f Ho; try discriminate Ho; [eexists; reflexivity|].
  cbn [flat_map load_each]. rewrite <- app_assoc. destruct (F o (flat_map (save c) l ++ f)) as (y & ->). cbn [bind].
  destruct (IH olds f) as (ys & ->); [now injection Ho|]. eexists. reflexivity.
Qed.
Lemma each_ends {A} (c : codec A) : ends c -> forall olds, load_each c olds [] = UB \/ exists l, load_each c olds [] = Ok (l, []).
Proof.
  intros E. induction olds as [|o olds IH]; [right; eexists; reflexivity|]. cbn [load_each]. destruct (E o) as [-> |(y & ->)]; [now left|]. cbn [bind].
  destruct IH as [-> |(l & ->)]; [now left|right; eexists; reflexivity].
Qed.
Lemma each_short {A} (c : codec A) : ends c -> forall l, Forall (cuts c) l -> forall olds n, length olds = length l -> n < length (flat_map (save c) l) ->
  load_each c olds (firstn n (flat_map (save c) l)) = UB \/ exists l', load_each c olds (firstn n (flat_map (save c) l)) = Ok (l', []).
Proof.
  intros E. induction 1 as [|x l [F S _] _ IH]; intros [|o olds] n Ho Hn; try discriminate Ho; [cbn in Hn; lia|].
  cbn [flat_map load_each] in *. destruct (Nat.lt_ge_cases n (length (save c x))) as [H|H].
  - rewrite firstn_app. replace (n - length (save c x)) with 0 by lia. cbn [firstn]. rewrite app_nil_r.
    destruct (S n H o) as [-> |(y & ->)]; [now left|]. cbn [bind]. destruct (each_ends c E olds) as [-> |(l' & ->)]; [now left|right; eexists; reflexivity].
  - rewrite firstn_past by exact H. destruct (F o (firstn (n - length (save c x)) (flat_map (save c) l))) as (y & ->). cbn [bind].
    destruct (IH olds (n - length (save c x))) as [-> |(l' & ->)]; [now injection Ho|rewrite app_length in Hn; lia|now left|right; eexists; reflexivity].
Qed.
Lemma resized_length {A} (l : list A) n fresh : length (resized l n fresh) = n.
Proof. unfold resized. rewrite app_length, firstn_length, repeat_length. lia. Qed.
(** A vector, cut after its length. *)
Lemma vector_load {A} (c : codec A) fresh (l l0 : list A) f : (N.of_nat (length l) < W64)%N ->
  load (vector c fresh) l0 (le_bytes 8 (N.of_nat (length l)) ++ f) = load_each c (resized l0 (length l) fresh) f.
Proof.
  intros Hl. cbn [vector load]. destruct (Nat.ltb_spec (length (le_bytes 8 (N.of_nat (length l)) ++ f)) 8) as [H|_]; [rewrite app_length, le_bytes_length in H; lia|].
  change (le_bytes 8 (N.of_nat (length l))) with (save u64 (N.of_nat (length l))).
  rewrite (u64_good (N.of_nat (length l)) Hl 0%N). cbn [bind]. now rewrite Nat2N.id.
Qed.
Lemma vector_cut_length {A} (c : codec A) fresh (l l0 : list A) n : n < 8 -> load (vector c fresh) l0 (firstn n (save (vector c fresh) l)) = UB.
Proof.
  intros H. cbn [vector load save]. destruct (Nat.ltb_spec (length (firstn n (le_bytes 8 (N.of_nat (length l)) ++ flat_map (save c) l))) 8) as [_|H']; [reflexivity|].
  rewrite firstn_length in H'. lia.
Qed.
Lemma vector_cuts {A} (c : codec A) fresh (l : list A) : ends c -> (N.of_nat (length l) < W64)%N -> Forall (cuts c) l -> cuts (vector c fresh) l.
Proof.
  intros E Hl Hc. split; [| |apply dry_ends, vector_dry].
  - intros l0 f. cbn [vector save]. rewrite <- app_assoc, vector_load by exact Hl. apply each_full; [exact Hc|apply resized_length].
  - intros n Hn l0. destruct (Nat.lt_ge_cases n 8) as [H|H]; [left; now apply vector_cut_length|]. cbn [vector save] in *.
    rewrite app_length, le_bytes_length in Hn. rewrite firstn_past, le_bytes_length, vector_load by (rewrite ?le_bytes_length; assumption).
    apply each_short; [exact E|exact Hc|apply resized_length|lia].
Qed.

Lemma all_cuts {A} (c : codec A) l : (forall x, cuts c x) -> Forall (cuts c) l.
Proof. intros H. apply Forall_forall. auto. Qed.
Lemma nat_cuts n x : cuts (nat_of (pod n)) x. Proof. apply convert_cuts, pod_cuts. Qed.
Lemma signed_cuts n x : cuts (signed n) x. Proof. apply convert_cuts, pod_cuts. Qed.
Lemma simple_cuts {A} (c : codec A) fresh (l : list A) : (forall x, cuts c x) -> (N.of_nat (length l) < W64)%N -> cuts (vector c fresh) l.
Proof. intros H Hl. apply vector_cuts; [exact (cu_ends _ _ (H fresh))|exact Hl|now apply all_cuts]. Qed.

Ltac cut_members := repeat match goal with
  | |- cuts nothing _ => apply nothing_cuts
  | |- cuts (next _ _) _ => apply next_cuts
  | |- cuts (member _ _ _) _ => apply member_cuts
  end.
Ltac cut_start c := let x := fresh "x" in intros x Hx; destruct Hx; unfold c, visits; cbn [fold_right]; cut_members; try apply nat_cuts; try apply pod_cuts.
Lemma bv_cuts : forall v, fit_bv v -> cuts visit_bv v.
Proof. cut_start visit_bv. apply simple_cuts; [apply pod_cuts|apply fb_words]. Qed.
Lemma cvec_cuts : forall v, fit_cvec v -> cuts visit_cvec v.
Proof. cut_start visit_cvec. apply simple_cuts; [apply pod_cuts|apply fv_bits]. Qed.
Lemma darray_cuts : forall d, fit_darray d -> cuts visit_darray d.
Proof. cut_start visit_darray; apply simple_cuts; try apply signed_cuts; try apply pod_cuts; try apply nat_cuts; [apply fd_blocks|apply fd_subs|apply fd_over]. Qed.
Lemma efs_cuts : forall e, fit_efs e -> cuts visit_efs e.
Proof. cut_start visit_efs; [now apply bv_cuts|now apply darray_cuts|now apply bv_cuts]. Qed.
Lemma rsv_cuts : forall r, fit_rsv r -> cuts visit_rsv r.
Proof. cut_start visit_rsv; [now apply bv_cuts| | |]; apply simple_cuts; try apply pod_cuts; try apply nat_cuts; [apply fr_pairs|apply fr_hints|apply fr_hints0]. Qed.
Lemma bpv_cuts : forall p, fit_bpv p -> cuts visit_bpv p.
Proof. cut_start visit_bpv; [now apply rsv_cuts| |]; apply simple_cuts; try apply signed_cuts; [apply fp_mins|apply fp_tree]. Qed.
Lemma dict_cuts : forall d, fit_dict d -> cuts visit_dict d.
Proof. cut_start visit_dict; apply simple_cuts; try apply pod_cuts; try apply nat_cuts; [apply ft_ph|apply ft_pb|apply ft_hdrs|apply ft_bkts]. Qed.
Lemma idict_cuts : forall d, fit_idict d -> cuts visit_idict d.
Proof. cut_start visit_idict; apply simple_cuts; try apply pod_cuts; try apply nat_cuts; [apply fi_ph|apply fi_pb|apply fi_hdrs|apply fi_bkts]. Qed.
Lemma efs_ends : ends visit_efs.
Proof. intros x0. left. reflexivity. Qed.
Lemma efss_cuts fresh l : fit_efss l -> cuts (vector visit_efs fresh) l.
Proof. intros [Hl Hf]. apply vector_cuts; [apply efs_ends|exact Hl|]. eapply Forall_impl; [|exact Hf]. exact efs_cuts. Qed.
Lemma trie_cuts fresh : forall t, fit_trie t -> cuts (visit_trie fresh) t.
Proof. cut_start visit_trie; now apply efss_cuts. Qed.
Lemma ulist_cuts : forall u, fit_ulist u -> cuts visit_ulist u.
Proof. cut_start visit_ulist; [now apply bpv_cuts|now apply cvec_cuts]. Qed.
Lemma inv_cuts : forall d, fit_inv d -> cuts visit_inv d.
Proof. cut_start visit_inv; [now apply efs_cuts|now apply bv_cuts]. Qed.
Lemma binv_cuts : forall d, fit_binv d -> cuts visit_binv d.
Proof.
  cut_start visit_binv; [apply simple_cuts; [intros; apply nat_cuts|apply fx_blocks]| | | | | |];
  first [now apply efs_cuts|now apply bv_cuts].
Qed.

(** ** The words of the last vector *)
Lemma word_cut x o n : n < 8 -> exists y, load u64 o (firstn n (save u64 x)) = Ok (y, []) /\ (n = 0 -> (o < W64)%N -> y = o).
Proof.
  intros Hn. assert (L : length (firstn n (save u64 x)) = n) by (rewrite firstn_length; change (length (save u64 x)) with 8; lia).
  unfold u64, pod at 1. cbn [load]. change (save (pod 8) x) with (save u64 x). rewrite L. destruct (Nat.ltb_spec n 8); [|lia]. eexists. split; [reflexivity|].
  intros -> Ho. cbn [firstn app skipn]. now apply le_value_bytes.
Qed.
Lemma words_old : forall olds, words olds -> load_each u64 olds [] = Ok (olds, []).
Proof.
  induction 1 as [|o olds Ho H IH]; [reflexivity|]. cbn [load_each]. destruct (word_cut 0 o 0 ltac:(lia)) as (y & E & Ey). cbn [firstn] in E. rewrite E. cbn [bind].
  rewrite IH, (Ey eq_refl Ho). reflexivity.
Qed.
Lemma words_cut : forall l, words l -> forall olds m, words olds -> length olds = length l -> m < 8 * length l ->
  exists got, load_each u64 olds (firstn m (flat_map (save u64) l)) = Ok (got, []) /\ missing_words l olds m got.
Proof.
  induction 1 as [|x l Hx Hl IH]; intros olds m Ho Hlen Hm; [cbn in Hm; lia|]. destruct olds as [|o olds]; [discriminate Hlen|]. inversion Ho; subst.
  cbn [length] in Hm, Hlen. injection Hlen as Hlen. cbn [flat_map load_each]. destruct (Nat.lt_ge_cases m 8) as [H|H].
  - rewrite firstn_app. change (length (save u64 x)) with 8. replace (m - 8) with 0 by lia. cbn [firstn]. rewrite app_nil_r.
    destruct (word_cut x o m H) as (y & E & Ey). rewrite E. cbn [bind]. rewrite words_old by assumption. cbn [bind]. eexists. split; [reflexivity|]. split; [cbn [length]; congruence|].
    intros [|i] Hi; cbn [nth]; (split; intros Hc; [lia|]); [apply Ey; [lia|assumption]|reflexivity].
  - rewrite firstn_past by exact H. rewrite (u64_good x Hx). change (length (save u64 x)) with 8. cbn [bind].
    destruct (IH olds (m - 8)) as (got & E & Hg1 & Hg2); [assumption|exact Hlen|lia|]. rewrite E. cbn [bind]. eexists. split; [reflexivity|]. split; [cbn [length]; congruence|].
    intros [|i] Hi; cbn [nth]; (split; intros Hc); [reflexivity|lia| |]; apply Hg2; cbn [length] in Hi; lia.
Qed.
Lemma resized_words l n : words l -> words (resized l n 0%N).
Proof.
  intros H. unfold resized. apply Forall_app. split.
  { unfold words in H. rewrite <- (firstn_skipn n l) in H. now apply Forall_app in H. }
  apply Forall_forall. intros x Hx. apply repeat_spec in Hx. subst. reflexivity.
Qed.
Lemma resized_nth l n i : i < n -> nth i (resized l n 0%N) 0%N = nth i l 0%N.
Proof.
  intros H. unfold resized. destruct (Nat.lt_ge_cases i (length l)) as [L|L].
  - rewrite app_nth1 by (rewrite firstn_length; lia). rewrite <- (firstn_skipn n l) at 2. rewrite app_nth1; [reflexivity|]. rewrite firstn_length; lia.
  - rewrite app_nth2 by (rewrite firstn_length; lia). rewrite (nth_overflow l) by lia. generalize (i - length (firstn n l)). generalize (n - length l). clear.
    induction n as [|n IH]; intros [|k]; cbn [repeat nth]; auto.
Qed.
Lemma cvec_head v f v0 : fit_cvec v ->
  load visit_cvec v0 (le_bytes 8 (N.of_nat (cv_size v)) ++ le_bytes 8 (N.of_nat (cv_width v)) ++ le_bytes 8 (cv_mask v) ++ f) =
  (do (x, g) <- load word64s (cv_bits v0) f; Ok ({| cv_size := cv_size v; cv_width := cv_width v; cv_mask := cv_mask v; cv_bits := x |}, g)).
Proof.
  intros [H1 H2 H3 H4]. unfold visit_cvec, visits. cbn [fold_right next member nothing load].
  change (le_bytes 8 (N.of_nat (cv_size v))) with (save (nat_of u64) (cv_size v)). change (le_bytes 8 (N.of_nat (cv_width v))) with (save (nat_of u64) (cv_width v)).
  change (le_bytes 8 (cv_mask v)) with (save u64 (cv_mask v)).
  rewrite nat64_good by assumption. cbn [bind]. rewrite nat64_good by assumption. cbn [bind]. rewrite u64_good by assumption. cbn [bind]. destruct v0 as [a b c d]. cbn [set_cv_size set_cv_width set_cv_mask cv_bits].
  generalize (load word64s d f). intros [(x & g)| | |]; reflexivity.
Qed.
Definition cvec_header : nat := 32.
Lemma cvec_save v : save visit_cvec v = le_bytes 8 (N.of_nat (cv_size v)) ++ le_bytes 8 (N.of_nat (cv_width v)) ++ le_bytes 8 (cv_mask v) ++
  le_bytes 8 (N.of_nat (length (cv_bits v))) ++ flat_map (save u64) (cv_bits v).
Proof. unfold visit_cvec, visits. cbn [fold_right next member nothing save]. now rewrite !app_nil_r. Qed.
Lemma flat_words l : length (flat_map (save u64) l) = 8 * length l.
Proof. induction l as [|x l IH]; [reflexivity|]. cbn [flat_map length]. rewrite app_length, IH. change (length (save u64 x)) with 8. lia. Qed.
Lemma cvec_saved v : length (save visit_cvec v) = cvec_header + 8 * length (cv_bits v).
Proof. rewrite cvec_save, !app_length, !le_bytes_length, flat_words. unfold cvec_header. lia. Qed.

(** ** Files cut before the last vector *)
Definition cut_ub {A} (c : codec A) (x : A) (k : nat) : Prop := forall n, n < k -> forall x0, load c x0 (firstn n (save c x)) = UB.
Lemma next_dry {S} (c c' : codec S) : ends c -> dry c' -> dry (next c c').
Proof. intros E D x0. cbn [next load]. destruct (E x0) as [-> |(y & ->)]; [reflexivity|]. cbn [bind]. apply D. Qed.
Lemma next_dry_first {S} (c c' : codec S) : dry c -> dry (next c c').
Proof. intros D x0. cbn [next load]. now rewrite D. Qed.
Lemma member_dry {S A} (c : codec A) (get : S -> A) set : dry c -> dry (member c get set).
Proof. intros D x0. cbn [member load]. now rewrite D. Qed.
Lemma next_cut {S} (c c' : codec S) x k : cuts c x -> dry c' -> cut_ub c' x k -> cut_ub (next c c') x (length (save c x) + k).
Proof.
  intros [F S' _] D U n Hn x0. cbn [next load save]. destruct (Nat.lt_ge_cases n (length (save c x))) as [H|H].
  - rewrite firstn_app. replace (n - length (save c x)) with 0 by lia. cbn [firstn]. rewrite app_nil_r.
    destruct (S' n H x0) as [-> |(y & ->)]; [reflexivity|]. cbn [bind]. apply D.
  - rewrite firstn_past by exact H. destruct (F x0 (firstn (n - length (save c x)) (save c' x))) as (y & ->). cbn [bind]. apply U. lia.
Qed.
Lemma next_cut_first {S} (c c' : codec S) x k : k <= length (save c x) -> cut_ub c x k -> cut_ub (next c c') x k.
Proof.
  intros Hk U n Hn x0. cbn [next load save]. rewrite firstn_app. replace (n - length (save c x)) with 0 by lia. cbn [firstn]. rewrite app_nil_r. now rewrite U.
Qed.
Lemma member_cut {S A} (c : codec A) (get : S -> A) set x k : cut_ub c (get x) k -> cut_ub (member c get set) x k.
Proof. intros U n Hn x0. cbn [member load save]. now rewrite U. Qed.
Lemma cvec_dry : dry visit_cvec. Proof. intros v0. reflexivity. Qed.
Lemma cvec_cut_ub v : cut_ub visit_cvec v cvec_header.
Proof.
  unfold visit_cvec, visits. cbn [fold_right]. change cvec_header with (8 + (8 + (8 + 8))).
  apply (next_cut (member (nat_of u64) cv_size set_cv_size)); [apply member_cuts, nat_cuts|intros ?; reflexivity|].
  apply (next_cut (member (nat_of u64) cv_width set_cv_width)); [apply member_cuts, nat_cuts|intros ?; reflexivity|].
  apply (next_cut (member u64 cv_mask set_cv_mask)); [apply member_cuts, pod_cuts|intros ?; reflexivity|].
  apply next_cut_first; [|].
  - cbn [member save word64s vector]. rewrite app_length, le_bytes_length. lia.
  - apply member_cut. intros n Hn x0. now apply vector_cut_length.
Qed.
Lemma cvec_cut v v0 m : fit_cvec v -> words (cv_bits v0) -> m < 8 * length (cv_bits v) ->
  exists got, load visit_cvec v0 (firstn (cvec_header + m) (save visit_cvec v)) = Ok (cvec_with v got, []) /\ missing_words (cv_bits v) (cv_bits v0) m got.
Proof.
  intros Hv Hw Hm. rewrite cvec_save. unfold cvec_header.
  do 4 (rewrite firstn_past; rewrite le_bytes_length; [|lia]). replace (32 + m - 8 - 8 - 8 - 8) with m by lia. rewrite cvec_head by exact Hv.
  assert (Hl : (N.of_nat (length (cv_bits v)) < W64)%N) by apply Hv. unfold word64s. rewrite vector_load by exact Hl.
  destruct (words_cut (cv_bits v) ltac:(apply Hv) (resized (cv_bits v0) (length (cv_bits v)) 0%N) m (resized_words _ _ Hw) (resized_length _ _ _) Hm) as (got & E & G1 & G2).
  rewrite E. cbn [bind]. exists got. split; [reflexivity|]. split; [exact G1|]. intros i Hi. destruct (G2 i Hi) as [A B]. split; [exact A|]. intros C. rewrite (B C). now apply resized_nth.
Qed.

(** ** The four indexes *)
(** A codec whose last member is the vector: [k] bytes precede the words. *)
Definition last_words {A} (c : codec A) (x : A) (vec_of : A -> cvec) (replaced : list N -> A) (k : nat) : Prop :=
  length (save c x) = k + 8 * length (cv_bits (vec_of x)) /\ cut_ub c x k /\
  forall x0 m, words (cv_bits (vec_of x0)) -> m < 8 * length (cv_bits (vec_of x)) ->
    exists got, load c x0 (firstn (k + m) (save c x)) = Ok (replaced got, []) /\ missing_words (cv_bits (vec_of x)) (cv_bits (vec_of x0)) m got.
Lemma last_file {A} (c : codec A) P (old x : A) vec_of replaced k : P_Save.good c P -> P x ->
  last_words c x vec_of replaced k -> words (cv_bits (vec_of old)) -> cut_file c old x vec_of replaced.
Proof.
  intros Hg Hx (L & U & G) Ho n. cbn zeta. unfold save_file. rewrite L. replace (k + 8 * length (cv_bits (vec_of x)) - 8 * length (cv_bits (vec_of x))) with k by lia. split; [|split].
  - intros H. unfold load_file. now rewrite U.
  - intros H. destruct (G old (n - k) Ho ltac:(lia)) as (got & E & M). exists got. split; [|exact M]. unfold load_file. replace (k + (n - k)) with n in E by lia. now rewrite E.
  - intros H. rewrite firstn_all2 by lia. unfold load_file. rewrite <- (app_nil_r (save c x)), (Hg x Hx). reflexivity.
Qed.
Lemma cvec_last v : fit_cvec v -> last_words visit_cvec v (fun v => v) (cvec_with v) cvec_header.
Proof.
  intros H. split; [apply cvec_saved|]. split; [apply cvec_cut_ub|]. intros x0 m Hw Hm. now apply cvec_cut.
Qed.
(** Members in order; [upd] is what reading them does to the object. *)
Definition last_upd {S} (c : codec S) (x : S) (vec_of : S -> cvec) (upd : S -> list N -> S) (k : nat) : Prop :=
  length (save c x) = k + 8 * length (cv_bits (vec_of x)) /\ cut_ub c x k /\
  forall x0 m, words (cv_bits (vec_of x0)) -> m < 8 * length (cv_bits (vec_of x)) ->
    exists got, load c x0 (firstn (k + m) (save c x)) = Ok (upd x0 got, []) /\ missing_words (cv_bits (vec_of x)) (cv_bits (vec_of x0)) m got.
Lemma last_member {S A} (c : codec A) (get : S -> A) set x vec_of replaced k : last_words c (get x) vec_of replaced k ->
  last_upd (next (member c get set) nothing) x (fun s => vec_of (get s)) (fun s got => set s (replaced got)) k.
Proof.
  intros (L & U & G). split; [cbn [next member nothing save]; now rewrite app_nil_r|]. split.
  - apply next_cut_first; [cbn [member save]; rewrite L; lia|]. now apply member_cut.
  - intros x0 m Hw Hm. destruct (G (get x0) m Hw Hm) as (got & E & M). exists got. split; [|exact M].
    cbn [next member nothing load save]. rewrite app_nil_r, E. reflexivity.
Qed.
Lemma before_last {S A} (c : codec A) (P : A -> Prop) (get : S -> A) set rest x vec_of upd k :
  P_Save.good c P -> P (get x) -> cuts c (get x) -> dry rest -> (forall y v, vec_of (set y v) = vec_of y) -> last_upd rest x vec_of upd k ->
  last_upd (next (member c get set) rest) x vec_of (fun s got => upd (set s (get x)) got) (length (save c (get x)) + k).
Proof.
  intros Hg Hx Hc Hd Hv (L & U & G). split; [|split].
  - cbn [next member save]. rewrite app_length, L. lia.
  - apply (next_cut (member c get set)); [now apply member_cuts|exact Hd|exact U].
  - intros x0 m Hw Hm. destruct (G (set x0 (get x)) m) as (got & E & M); [now rewrite Hv|exact Hm|]. exists got. rewrite Hv in M. split; [|exact M].
    cbn [next member load save]. rewrite firstn_past by lia. replace (length (save c (get x)) + k + m - length (save c (get x))) with (k + m) by lia.
    rewrite (Hg (get x) Hx). cbn [bind]. exact E.
Qed.
Lemma last_all {S} (c : codec S) x vec_of upd replaced k : last_upd c x vec_of upd k -> (forall s got, upd s got = replaced got) -> last_words c x vec_of replaced k.
Proof.
  intros (L & U & G) H. split; [exact L|]. split; [exact U|]. intros x0 m Hw Hm. destruct (G x0 m Hw Hm) as (got & E & M). exists got. rewrite E, H. auto.
Qed.

Lemma fwd_last d : fit_fwd d -> exists k, last_words visit_fwd d wd_data (fun got => set_wd_data d (cvec_with (wd_data d) got)) k.
Proof.
  intros H. destruct H as [H1 H2 H3 H4]. eexists. eapply last_all.
  - unfold visit_fwd, visits. cbn [fold_right].
    eapply (before_last (nat_of u64)); [exact nat64_good|exact H1|apply nat_cuts|intros ?; reflexivity|reflexivity|].
    eapply (before_last (nat_of u64)); [exact nat64_good|exact H2|apply nat_cuts|intros ?; reflexivity|reflexivity|].
    eapply (before_last visit_efs); [exact efs_good|exact H3|now apply efs_cuts|intros ?; reflexivity|reflexivity|].
    apply (last_member visit_cvec wd_data set_wd_data d (fun v => v)). now apply cvec_last.
  - intros s got. destruct s, d. reflexivity.
Qed.
Lemma index2_last d : fit2 d -> exists k, last_words visit_index2 d d2_lexid (fun got => set_d2_lexid d (cvec_with (d2_lexid d) got)) k.
Proof.
  intros H. destruct H as [H1 H2 H3 H4 H5 H6]. eexists. eapply last_all.
  - unfold visit_index2, visits. cbn [fold_right].
    eapply (before_last visit_idict); [exact idict_good|exact H1|now apply idict_cuts|intros ?; reflexivity|reflexivity|].
    eapply (before_last visit_ulist); [exact ulist_good|exact H2|now apply ulist_cuts|intros ?; reflexivity|reflexivity|].
    eapply (before_last visit_ulist); [exact ulist_good|exact H3|now apply ulist_cuts|intros ?; reflexivity|reflexivity|].
    eapply (before_last visit_dict); [exact dict_good|exact H4|now apply dict_cuts|intros ?; reflexivity|reflexivity|].
    eapply (before_last visit_inv); [exact inv_good|exact H5|now apply inv_cuts|intros ?; reflexivity|reflexivity|].
    apply (last_member visit_cvec d2_lexid set_d2_lexid d (fun v => v)). now apply cvec_last.
  - intros s got. destruct s, d. reflexivity.
Qed.
Lemma index3_last d : fit3 d -> exists k, last_words visit_index3 d d3_lexid (fun got => set_d3_lexid d (cvec_with (d3_lexid d) got)) k.
Proof.
  intros H. destruct H as [H1 H2 H3 H4 H5]. eexists. eapply last_all.
  - unfold visit_index3, visits. cbn [fold_right].
    eapply (before_last visit_idict); [exact idict_good|exact H1|now apply idict_cuts|intros ?; reflexivity|reflexivity|].
    eapply (before_last visit_ulist); [exact ulist_good|exact H2|now apply ulist_cuts|intros ?; reflexivity|reflexivity|].
    eapply (before_last visit_dict); [exact dict_good|exact H3|now apply dict_cuts|intros ?; reflexivity|reflexivity|].
    eapply (before_last visit_inv); [exact inv_good|exact H4|now apply inv_cuts|intros ?; reflexivity|reflexivity|].
    apply (last_member visit_cvec d3_lexid set_d3_lexid d (fun v => v)). now apply cvec_last.
  - intros s got. destruct s, d. reflexivity.
Qed.
Lemma index4_last d : fit4 d -> exists k, last_words visit_index4 d d4_lexid (fun got => set_d4_lexid d (cvec_with (d4_lexid d) got)) k.
Proof.
  intros H. destruct H as [H1 H2 H3 H4 H5]. eexists. eapply last_all.
  - unfold visit_index4, visits. cbn [fold_right].
    eapply (before_last visit_idict); [exact idict_good|exact H1|now apply idict_cuts|intros ?; reflexivity|reflexivity|].
    eapply (before_last visit_ulist); [exact ulist_good|exact H2|now apply ulist_cuts|intros ?; reflexivity|reflexivity|].
    eapply (before_last visit_dict); [exact dict_good|exact H3|now apply dict_cuts|intros ?; reflexivity|reflexivity|].
    eapply (before_last visit_binv); [exact binv_good|exact H4|now apply binv_cuts|intros ?; reflexivity|reflexivity|].
    apply (last_member visit_cvec d4_lexid set_d4_lexid d (fun v => v)). now apply cvec_last.
  - intros s got. destruct s, d. reflexivity.
Qed.
Lemma index1_last fresh d : fit1 d -> exists k, last_words (visit_index1 fresh) d (fun d => wd_data (d1_fwd d))
  (fun got => set_d1_fwd d (set_wd_data (d1_fwd d) (cvec_with (wd_data (d1_fwd d)) got))) k.
Proof.
  intros H. destruct H as [H1 H2 H3 H4 H5 H6]. destruct (fwd_last (d1_fwd d) H6) as (k & Hk). eexists. eapply last_all.
  - unfold visit_index1, visits. cbn [fold_right].
    eapply (before_last (visit_trie fresh)); [exact (trie_good fresh)|exact H1|now apply trie_cuts|intros ?; reflexivity|reflexivity|].
    eapply (before_last visit_ulist); [exact ulist_good|exact H2|now apply ulist_cuts|intros ?; reflexivity|reflexivity|].
    eapply (before_last visit_ulist); [exact ulist_good|exact H3|now apply ulist_cuts|intros ?; reflexivity|reflexivity|].
    eapply (before_last visit_dict); [exact dict_good|exact H4|now apply dict_cuts|intros ?; reflexivity|reflexivity|].
    eapply (before_last visit_inv); [exact inv_good|exact H5|now apply inv_cuts|intros ?; reflexivity|reflexivity|].
    exact (last_member visit_fwd d1_fwd set_d1_fwd d wd_data _ k Hk).
  - intros s got. destruct s, d. reflexivity.
Qed.
