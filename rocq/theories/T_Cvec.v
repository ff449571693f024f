(** C26: compact_vector returns what was stored. *)
From Verif Require Import Base M_Word S_Bits P_Word M_Bits P_Bits P_BitsRead M_Cvec P_Cvec.
Local Open Scope nat_scope.

(** build(begin, n, w): operator[], access (w <= 57, whatever lies after the vector) and the enumerator (started anywhere)
    give every value, cut to w bits; so values that fit are returned unchanged, and others disturb no other position.
    Missing: w = 64, see below. *)
Theorem C26_build_partial : forall l w, 1 <= w < 64 -> Forall (fun v => (v < 2 ^ 64)%N) l ->
  exists v, cv_build_width l w = Ok v /\ cv_size v = length l /\ cv_width v = w /\
    (forall i, i < length l -> cv_at v i = Ok (nth i l 0 mod 2 ^ N.of_nat w)%N) /\
    (forall i tail, i < length l -> w <= 57 -> (tail < 2 ^ 64)%N -> cv_access v tail i = Ok (nth i l 0 mod 2 ^ N.of_nat w)%N) /\
    (forall i n, i + n <= length l -> e_take v (e_new v i) n = Ok (map (fun x => (x mod 2 ^ N.of_nat w)%N) (firstn n (skipn i l)))).
Proof.
  intros l w Hw Hl. destruct (cv_build_width_ok l w Hw Hl) as (v & E & H). exists v. split; [assumption|]. split; [apply H|]. split; [apply H|]. split; [|split].
  - intros i Hi. now apply (cv_at_ok v w l).
  - intros i tail Hi H57 Ht. apply (cv_access_ok v w l); [assumption|lia|assumption|assumption].
  - intros i n Hn. apply (e_take_ok v w l H Hw n (e_new v i) i).
    + unfold e_new. cbn [e_block e_shift]. rewrite (cvo_width _ _ _ H). symmetry. apply Nat.div_mod. lia.
    + unfold e_new. cbn [e_shift]. apply Nat.mod_upper_bound. lia.
    + assumption.
Qed.

(** Values that fit are returned unchanged. *)
Theorem C26_fitting : forall l w, 1 <= w < 64 -> Forall (fun v => (v < 2 ^ N.of_nat w)%N) l ->
  exists v, cv_build_width l w = Ok v /\ forall i, i < length l -> cv_at v i = Ok (nth i l 0%N).
Proof.
  intros l w Hw Hl. assert (Hl64 : Forall (fun v => (v < W64)%N) l).
  { eapply Forall_impl; [|exact Hl]. cbn. intros x Hx. apply word_iff. intros i Hi. apply (below_tb w x Hx). lia. }
  destruct (cv_build_width_ok l w Hw Hl64) as (v & E & H). exists v. split; [assumption|]. intros i Hi.
  rewrite (cv_at_ok v w l) by assumption. f_equal. apply N.mod_small. now apply (proj1 (Forall_forall _ _) Hl), nth_In.
Qed.

(** build(begin, n): the width is found from the maximum. *)
Theorem C26_build_max_partial : forall l, Forall (fun v => (v < 2 ^ 63)%N) l -> (exists x, In x l /\ (0 < x)%N) ->
  exists v, cv_build l = Ok v /\ forall i, i < length l -> cv_at v i = Ok (nth i l 0%N).
Proof.
  intros l Hl (x & Hx & Hx0). assert (Hmax : forall y, In y l -> (y <= fold_right N.max 0 l)%N).
  { clear. induction l as [|z l IH]; intros y Hy; [contradiction|]. destruct Hy as [->|Hy]; cbn; [lia|]. specialize (IH y Hy). lia. }
  assert (Hm63 : (fold_right N.max 0 l < 2 ^ 63)%N) by (clear -Hl; induction Hl; cbn in *; lia).
  pose proof (Hmax x Hx) as Hpos. unfold cv_build. destruct l as [|z l]; [contradiction|]. set (m := fold_right N.max 0%N (z :: l)) in *.
  unfold wadd. rewrite wrap_small by (rewrite W64_pow; lia).
  destruct (ceil_log2_w_ok (m + 1)) as (w & -> & Hw1 & Hw2); [rewrite W64_pow; lia|]. cbn [bind].
  assert (Hw : 1 <= w < 64).
  { split; [|enough (w <= 63) by lia; apply Hw2; change (2 ^ N.of_nat 63)%N with (2 ^ 63)%N; lia].
    destruct w; [change (2 ^ N.of_nat 0)%N with 1%N in Hw1; lia|lia]. }
  destruct (C26_fitting (z :: l) w Hw) as (v & E & H).
  { apply Forall_forall. intros y Hy. specialize (Hmax y Hy). lia. }
  exists v. auto.
Qed.

(** Widths of 64 make the mask evaluate 1 << 64: undefined. It happens for build(begin, n) as soon as a value has 64 bits. *)
Theorem C26_width_64_refuted : cv_build_width [1%N] 64 = UB /\ cv_build [9223372036854775808%N] = UB.
Proof. split; vm_compute; reflexivity. Qed.
(** And when all values are 0, build(begin, n) computes the width 0 and throws. *)
Theorem C26_all_zero_refuted : forall n, cv_build (repeat 0%N (S n)) = Exn.
Proof.
  intros n. assert (E : fold_right N.max 0%N (repeat 0%N (S n)) = 0%N) by (induction n as [|n IH]; [reflexivity|]; cbn [repeat fold_right] in *; rewrite IH; reflexivity).
  unfold cv_build. cbn [repeat] in *. rewrite E. reflexivity.
Qed.

(** set(i, v) of a value that fits replaces value i only. *)
Theorem C26_set : forall l w i v, 1 <= w < 64 -> Forall (fun x => (x < 2 ^ 64)%N) l -> i < length l -> (v < 2 ^ N.of_nat w)%N ->
  exists b b', (do b <- cvb_new (length l) w; cvb_fill b l) = Ok b /\ cvb_set b i v = Ok b' /\
    forall j, j < length l -> cv_at (cvb_build b') j = Ok (if j =? i then v else (nth j l 0 mod 2 ^ N.of_nat w)%N).
Proof.
  intros l w i v Hw Hl Hi Hv. destruct (cvb_new_ok (length l) w Hw) as (b0 & -> & Hb0). cbn [bind].
  destruct (cvb_fill_ok (length l) w Hw l b0 [] Hb0) as (b & E & Hb); [cbn; lia|assumption|].
  destruct (cvb_set_ok b (length l) w ([] ++ l) i v Hb Hw) as (b' & E' & Hb'); [assumption|reflexivity|assumption|]. cbn [app] in *.
  exists b, b'. split; [assumption|]. split; [assumption|]. intros j Hj.
  assert (Hcv : cv_ok (cvb_build b') w (upd l i v)) by (destruct Hb'; split; cbn; rewrite ?upd_length in *; auto).
  rewrite (cv_at_ok _ w (upd l i v)) by (try assumption; now rewrite upd_length). f_equal. rewrite upd_nth.
  destruct (Nat.ltb_spec i (length l)); [|lia]. rewrite andb_true_r, (Nat.eqb_sym i j). destruct (Nat.eqb_spec j i); [|reflexivity]. now apply N.mod_small.
Qed.
(** set of a value that does not fit disturbs its neighbours. *)
Theorem C26_set_refuted : exists b b', (do b <- cvb_new 3 4; cvb_fill b [1; 2; 3]%N) = Ok b /\ cvb_set b 0 (16 + 1) = Ok b' /\
  cv_at (cvb_build b') 1 = Ok 3%N.
Proof. do 2 eexists. split; [vm_compute; reflexivity|]. split; vm_compute; reflexivity. Qed.

(** access loads 8 bytes: outside the vector near its end. *)
Theorem C26_access_refuted : exists v, cv_build_width (repeat 1%N 8) 8 = Ok v /\ cv_access_strict v 0 = Ok 1%N /\ cv_access_strict v 1 = UB.
Proof. eexists. split; [vm_compute; reflexivity|]. split; vm_compute; reflexivity. Qed.

(** Dereferencing an enumerator twice without ++ gives the next value. *)
Theorem C26_enumerator_refuted : exists v e e', cv_build_width [1; 2; 3]%N 4 = Ok v /\ e_read v (e_new v 0) = Ok (1%N, e) /\ e_read v e = Ok (2%N, e').
Proof. do 3 eexists. split; [vm_compute; reflexivity|]. split; vm_compute; reflexivity. Qed.

Example C26_nonvacuous : match cv_build_width [5; 1023; 70000; 9]%N 10 with
  | Ok v => cv_at v 0 = Ok 5%N /\ cv_at v 1 = Ok 1023%N /\ cv_at v 2 = Ok 368%N /\ cv_at v 3 = Ok 9%N /\ cv_access v 77 3 = Ok 9%N /\
            e_take v (e_new v 1) 3 = Ok [1023; 368; 9]%N
  | _ => False
  end.
Proof. vm_compute. repeat split. Qed.

Print Assumptions C26_build_partial.
Print Assumptions C26_fitting.
Print Assumptions C26_build_max_partial.
Print Assumptions C26_width_64_refuted.
Print Assumptions C26_all_zero_refuted.
Print Assumptions C26_set.
Print Assumptions C26_set_refuted.
Print Assumptions C26_access_refuted.
Print Assumptions C26_enumerator_refuted.
