(** rs_bit_vector: the rank directory, rank and select. *)
From Coq Require Import ZArith.
From Verif Require Import Base M_Word S_Bits P_Word M_Bits P_Bits P_Rank P_BitsRead M_Darray P_Darray M_Rs.
Local Open Scope nat_scope.

(** ** Fields of nine bits *)
Fixpoint pk (l : list N) : N := match l with [] => 0 | b :: l' => b + 512 * pk l' end%N.
Definition fields9 (l : list N) : Prop := Forall (fun b => (b < 512)%N) l.

Lemma lane9_split b p : (b < 512)%N -> ((b + 512 * p) mod 512 = b /\ (b + 512 * p) / 512 = p)%N.
Proof.
  intros H. split.
  - rewrite (N.mul_comm 512 p), N.mod_add by lia. now apply N.mod_small.
  - rewrite (N.mul_comm 512 p), N.div_add by lia. rewrite N.div_small by assumption. lia.
Qed.
Lemma tb_lane9 b p i : (b < 512)%N -> tb (b + 512 * p) i = if i <? 9 then tb b i else tb p (i - 9).
Proof.
  intros H. destruct (lane9_split b p H) as [Hm Hd]. destruct (Nat.ltb_spec i 9).
  - replace (tb b i) with (tb ((b + 512 * p) mod 2 ^ N.of_nat 9) i) by (change (2 ^ N.of_nat 9)%N with 512%N; now rewrite Hm).
    rewrite tb_mod_pow. destruct (Nat.ltb_spec i 9); [reflexivity|lia].
  - replace (tb p (i - 9)) with (tb (N.shiftr (b + 512 * p) (N.of_nat 9)) (i - 9)).
    + rewrite tb_shiftr. f_equal. lia.
    + rewrite N.shiftr_div_pow2. change (2 ^ N.of_nat 9)%N with 512%N. now rewrite Hd.
Qed.
Lemma field_high b i : (b < 512)%N -> 9 <= i -> tb b i = false.
Proof. intros H. change 512%N with (2 ^ N.of_nat 9)%N in H. rewrite below_pow_iff in H. apply H. Qed.
Lemma field_iff b : (b < 512)%N <-> forall i, 9 <= i -> tb b i = false.
Proof. change 512%N with (2 ^ N.of_nat 9)%N. apply below_pow_iff. Qed.
Lemma pk_lt l : fields9 l -> (pk l < 512 ^ N.of_nat (length l))%N.
Proof.
  induction 1 as [|b l Hb Hl IH]; [reflexivity|]. cbn [pk length]. rewrite Nat2N.inj_succ, N.pow_succ_r'. lia.
Qed.
Lemma pk7_lt l : fields9 l -> length l = 7 -> (pk l < 2 ^ 63)%N.
Proof. intros H E. apply pk_lt in H. rewrite E in H. exact H. Qed.
Lemma fields9_map2 f l : forall m, (forall x y, (x < 512 -> y < 512 -> f x y < 512)%N) -> fields9 l -> fields9 m -> fields9 (map2 f l m).
Proof.
  induction l as [|x l IH]; intros [|y m] Hf Hl Hm; cbn; constructor; inversion Hl; inversion Hm; subst; auto. now apply IH.
Qed.

(** Bitwise operations go field by field. *)
Lemma pk_bitwise op l : (forall x y i, tb (op x y) i = tb (op (if tb x i then 1 else 0) (if tb y i then 1 else 0))%N 0) -> op 0%N 0%N = 0%N ->
  forall m, fields9 l -> fields9 m -> length l = length m -> op (pk l) (pk m) = pk (map2 op l m).
Proof.
  intros Hop H0. assert (Hlt : forall x y, (x < 512 -> y < 512 -> op x y < 512)%N).
  { intros x y Hx Hy. apply field_iff. intros i Hi. rewrite Hop, (field_high x), (field_high y) by assumption. now rewrite H0. }
  induction l as [|x l IH]; intros [|y m] Hl Hm E; try discriminate; [exact H0|]. inversion Hl; inversion Hm; subst. cbn [pk map2].
  rewrite <- IH by (auto; injection E; auto). apply tb_ext. intros i. rewrite tb_lane9 by auto. rewrite Hop, !tb_lane9 by assumption.
  destruct (Nat.ltb_spec i 9); symmetry; apply Hop.
Qed.
Lemma pk_land l m : fields9 l -> fields9 m -> length l = length m -> N.land (pk l) (pk m) = pk (map2 N.land l m).
Proof. apply (pk_bitwise N.land); [|reflexivity]. intros x y i. rewrite tb_land. now destruct (tb x i), (tb y i). Qed.
Lemma pk_lor l m : fields9 l -> fields9 m -> length l = length m -> N.lor (pk l) (pk m) = pk (map2 N.lor l m).
Proof. apply (pk_bitwise N.lor); [|reflexivity]. intros x y i. rewrite tb_lor. now destruct (tb x i), (tb y i). Qed.
Lemma pk_lxor l m : fields9 l -> fields9 m -> length l = length m -> N.lxor (pk l) (pk m) = pk (map2 N.lxor l m).
Proof. apply (pk_bitwise N.lxor); [|reflexivity]. intros x y i. rewrite tb_lxor. now destruct (tb x i), (tb y i). Qed.
Lemma tb_ldiff x y i : tb (N.ldiff x y) i = tb x i && negb (tb y i).
Proof. apply N.ldiff_spec. Qed.
Lemma pk_ldiff l m : fields9 l -> fields9 m -> length l = length m -> N.ldiff (pk l) (pk m) = pk (map2 N.ldiff l m).
Proof. apply (pk_bitwise N.ldiff); [|reflexivity]. intros x y i. rewrite tb_ldiff. now destruct (tb x i), (tb y i). Qed.
Lemma land_wnot x y : (x < W64)%N -> N.land x (wnot y) = N.ldiff x y.
Proof.
  intros H. apply tb_ext. intros i. rewrite tb_land, tb_ldiff, tb_wnot. destruct (Nat.ltb_spec i 64); [reflexivity|].
  now rewrite (tb_high x i H) by assumption.
Qed.
Lemma pk_sub l : forall m, Forall2 (fun b c => c <= b)%N l m -> (pk l - pk m = pk (map2 N.sub l m) /\ pk m <= pk l)%N.
Proof. induction l as [|x l IH]; intros m H; inversion H; subst; cbn [pk map2]; [split; reflexivity|]. destruct (IH _ H4) as [E L]. rewrite <- E. lia. Qed.
Lemma pk_scale c l : pk (map (N.mul c) l) = (c * pk l)%N.
Proof. induction l as [|x l IH]; cbn [map pk]; [lia|]. rewrite IH. lia. Qed.
Lemma pk_repeat c n : pk (repeat c n) = (c * pk (repeat 1 n))%N.
Proof. rewrite <- pk_scale. f_equal. induction n as [|n IH]; cbn [repeat map]; [reflexivity|]. rewrite <- IH. f_equal. lia. Qed.
Lemma fields9_repeat c n : (c < 512)%N -> fields9 (repeat c n).
Proof. intros H. apply Forall_forall. intros x Hx. apply repeat_spec in Hx. now subst. Qed.
Lemma pk_shiftr l j : fields9 l -> N.shiftr (pk l) (N.of_nat (9 * j)) = pk (skipn j l).
Proof.
  revert l; induction j as [|j IH]; intros l Hl; [apply N.shiftr_0_r|].
  destruct l as [|b l]; [apply N.shiftr_0_l|]. inversion Hl; subst. cbn [skipn]. rewrite <- IH by assumption.
  replace (N.of_nat (9 * S j)) with (N.of_nat 9 + N.of_nat (9 * j))%N by lia. rewrite <- N.shiftr_shiftr. f_equal.
  rewrite N.shiftr_div_pow2. change (2 ^ N.of_nat 9)%N with 512%N. now apply lane9_split.
Qed.
Lemma pk_head l : fields9 l -> N.land (pk l) 511 = hd 0%N l.
Proof.
  intros H. change 511%N with (N.ones 9). rewrite N.land_ones. destruct H as [|b l Hb Hl]; [reflexivity|]. cbn [pk hd]. now apply lane9_split.
Qed.
Lemma pk_field l j : fields9 l -> length l = 7 -> j <= 7 -> exists y, shr (pk l) (j * 9) = Ok y /\ N.land y 511 = nth j l 0%N.
Proof.
  intros H E Hj. rewrite shr_ok by lia. eexists. split; [reflexivity|]. rewrite Nat.mul_comm, pk_shiftr by assumption. rewrite pk_head.
  - apply hd_skipn.
  - apply Forall_forall. intros x Hx. unfold fields9 in H. rewrite Forall_forall in H. apply H. rewrite <- (firstn_skipn j l). apply in_or_app. now right.
Qed.

(** One field of the comparison. *)
Definition cmp9 (x y : N) : N := N.land (N.lxor (N.lor (N.lor y 256 - N.ldiff x 256) (N.lxor x y)) (N.ldiff x y)) 256.
Definition all9 : list N := map N.of_nat (seq 0 512).
Lemma all9_in b : (b < 512)%N -> In b all9.
Proof. intros H. apply in_map_iff. exists (N.to_nat b). split; [lia|]. apply in_seq. lia. Qed.
Definition cmp9_check (x y : N) : bool :=
  ((N.ldiff x 256 <=? N.lor y 256) && (N.lor y 256 - N.ldiff x 256 <? 512) && (cmp9 x y =? 256 * (if x <=? y then 1 else 0)))%N.
Lemma cmp9_all : forallb (fun x => forallb (cmp9_check x) all9) all9 = true.
Proof. vm_compute. reflexivity. Qed.
Lemma cmp9_ok x y : (x < 512 -> y < 512 -> N.ldiff x 256 <= N.lor y 256 /\ N.lor y 256 - N.ldiff x 256 < 512 /\ cmp9 x y = 256 * (if x <=? y then 1 else 0))%N.
Proof.
  intros Hx Hy. pose proof cmp9_all as H. rewrite forallb_forall in H. specialize (H x (all9_in x Hx)). rewrite forallb_forall in H.
  specialize (H y (all9_in y Hy)). unfold cmp9_check in H. lia.
Qed.

Lemma map2_map2 {A} (f g h : A -> A -> A) l m : length l = length m -> map2 f (map2 g l m) (map2 h l m) = map2 (fun x y => f (g x y) (h x y)) l m.
Proof. revert m; induction l as [|x l IH]; intros [|y m] E; try discriminate; [reflexivity|]. cbn [map2]. f_equal. apply IH. injection E; auto. Qed.
Lemma map2_repeat_r {A B C} (f : A -> B -> C) l c : map2 f l (repeat c (length l)) = map (fun x => f x c) l.
Proof. induction l as [|x l IH]; cbn [length repeat map2 map]; [reflexivity|]. now rewrite IH. Qed.
Lemma map2_proj2 {A B C} (f : B -> C) l : forall m : list B, length (l : list A) = length m -> map f m = map2 (fun _ y => f y) l m.
Proof. induction l as [|x l IH]; intros [|y m] E; try discriminate; [reflexivity|]. cbn [map map2]. f_equal. apply IH. injection E; auto. Qed.
Lemma map2_proj1 {A B C} (f : A -> C) l : forall m : list B, length l = length m -> map f l = map2 (fun x _ => f x) l m.
Proof. induction l as [|x l IH]; intros [|y m] E; try discriminate; [reflexivity|]. cbn [map map2]. f_equal. apply IH. injection E; auto. Qed.
Lemma map2_ext_fields (f g : N -> N -> N) l : (forall x y, (x < 512 -> y < 512 -> f x y = g x y)%N) -> forall m, fields9 l -> fields9 m -> map2 f l m = map2 g l m.
Proof.
  intros Hfg. induction l as [|x l IH]; intros [|y m] Hl Hm; [reflexivity..|]. inversion Hl; inversion Hm; subst. cbn [map2]. f_equal; auto.
Qed.

Lemma map_map2 {A B C D} (f : C -> D) (g : A -> B -> C) l : forall m, map f (map2 g l m) = map2 (fun x y => f (g x y)) l m.
Proof. induction l as [|x l IH]; intros [|y m]; cbn [map map2]; auto. now rewrite IH. Qed.

Lemma msbs_pk : msbs_step_9 = pk (repeat 256%N 7).
Proof. reflexivity. Qed.
Lemma uleq_pk xs ys : fields9 xs -> fields9 ys -> length xs = 7 -> length ys = 7 ->
  uleq_step_9 (pk xs) (pk ys) = pk (map2 (fun x y => if (x <=? y)%N then 1%N else 0%N) xs ys).
Proof.
  intros Hx Hy Ex Ey. pose proof (pk7_lt xs Hx Ex) as Lx. pose proof (pk7_lt ys Hy Ey) as Ly.
  assert (H63 : (2 ^ 63 < W64)%N) by reflexivity.
  unfold uleq_step_9. rewrite !land_wnot by lia. rewrite msbs_pk.
  assert (Fr : fields9 (repeat 256%N 7)) by (apply fields9_repeat; lia).
  rewrite pk_lor by (assumption || now rewrite repeat_length). rewrite pk_ldiff by (assumption || now rewrite repeat_length).
  replace (repeat 256%N 7) with (repeat 256%N (length ys)) at 1 by now rewrite Ey. replace (repeat 256%N 7) with (repeat 256%N (length xs)) at 1 by now rewrite Ex.
  rewrite !map2_repeat_r. rewrite (map2_proj2 (fun y => N.lor y 256) xs) by lia. rewrite (map2_proj1 (fun x => N.ldiff x 256) xs ys) by lia.
  set (A := map2 (fun _ y => N.lor y 256) xs ys). set (B := map2 (fun x _ => N.ldiff x 256) xs ys).
  assert (HAB : Forall2 (fun b c => c <= b)%N A B).
  { unfold A, B. clear A B. assert (E : length xs = length ys) by lia. clear Ex Ey Lx Ly. revert ys Hy E. induction Hx as [|x l Hxx Hl IH]; intros [|y m] Hy E; try discriminate; cbn [map2]; constructor.
    - inversion Hy; subst. now apply cmp9_ok.
    - apply IH; [now inversion Hy|]. injection E; auto. }
  destruct (pk_sub A B HAB) as [Es Ls].
  assert (Esub : wsub (pk A) (pk B) = pk (map2 N.sub A B)).
  { rewrite <- Es. unfold wsub. replace (pk A + W64 - pk B)%N with (pk A - pk B + W64)%N by lia. unfold wrap.
    replace (pk A - pk B + W64)%N with (pk A - pk B + 1 * W64)%N by lia. rewrite N.mod_add by (unfold W64; lia). apply N.mod_small.
    assert (pk A < 2 ^ 63)%N; [|lia]. apply pk7_lt.
    - unfold A. apply (fields9_map2 (fun _ y => N.lor y 256)); try assumption. intros x y Hx' Hy'. apply field_iff. intros i Hi. rewrite tb_lor, (field_high y i Hy' Hi). apply field_high; [lia|assumption].
    - unfold A. rewrite map2_length. lia. }
  rewrite Esub. unfold A, B. rewrite map2_map2 by lia. rewrite pk_lxor, pk_ldiff by (assumption || lia).
  assert (Hs : fields9 (map2 (fun x y => N.lor y 256 - N.ldiff x 256)%N xs ys)) by (apply fields9_map2; try assumption; intros; now apply cmp9_ok).
  assert (Hxor : forall x y, (x < 512 -> y < 512 -> N.lxor x y < 512)%N) by (intros x y Hx' Hy'; apply field_iff; intros i Hi; now rewrite tb_lxor, !field_high).
  assert (Hor : forall x y, (x < 512 -> y < 512 -> N.lor x y < 512)%N) by (intros x y Hx' Hy'; apply field_iff; intros i Hi; now rewrite tb_lor, !field_high).
  assert (Hld : forall x y, (x < 512 -> y < 512 -> N.ldiff x y < 512)%N) by (intros x y Hx' Hy'; apply field_iff; intros i Hi; now rewrite tb_ldiff, !field_high).
  assert (Hfx : fields9 (map2 N.lxor xs ys)) by now apply fields9_map2.
  assert (Hfd : fields9 (map2 N.ldiff xs ys)) by now apply fields9_map2.
  rewrite pk_lor by (assumption || rewrite !map2_length; lia). rewrite map2_map2 by lia.
  assert (Hfo : fields9 (map2 (fun x y => N.lor (N.lor y 256 - N.ldiff x 256) (N.lxor x y))%N xs ys)).
  { apply fields9_map2; try assumption. intros x y Hx' Hy'. apply Hor; [now apply cmp9_ok|auto]. }
  rewrite pk_lxor by (assumption || rewrite !map2_length; lia). rewrite map2_map2 by lia.
  rewrite pk_land.
  - replace (repeat 256%N 7) with (repeat 256%N (length (map2 (fun x y => N.lxor (N.lor (N.lor y 256 - N.ldiff x 256) (N.lxor x y)) (N.ldiff x y))%N xs ys))) by (rewrite map2_length, Ex, Ey; reflexivity).
    rewrite map2_repeat_r. 
    replace (map (fun x : N => N.land x 256) (map2 (fun x y : N => N.lxor (N.lor (N.lor y 256 - N.ldiff x 256) (N.lxor x y)) (N.ldiff x y)) xs ys))
      with (map (N.mul 256) (map2 (fun x y => if (x <=? y)%N then 1%N else 0%N) xs ys)).
    + rewrite pk_scale. rewrite N.shiftr_div_pow2. change (2 ^ 8)%N with 256%N. now rewrite N.mul_comm, N.div_mul by lia.
    + rewrite !map_map2. apply map2_ext_fields; try assumption. intros x y Hx' Hy'. symmetry. now apply cmp9_ok.
  - apply (fields9_map2 (fun x y => N.lxor (N.lor (N.lor y 256 - N.ldiff x 256) (N.lxor x y)) (N.ldiff x y))%N); try assumption.
    intros x y Hx' Hy'. apply Hxor; [|auto]. apply Hor; [now apply cmp9_ok|auto].
  - assumption.
  - rewrite map2_length, repeat_length. lia.
Qed.

(** ** The rank directory *)
Section Dir.
  Variable ws : list N.
  Hypothesis Hws : words ws.
  Let f := bitat ws.

  Definition R (b j : nat) : nat := cnt (bitat ws) (512 * b + 64 * j) - cnt (bitat ws) (512 * b).
  Definition fld (b s : nat) : list N := map (fun j => N.of_nat (R b j)) (rev (seq 1 s)).
  Definition rk (b : nat) : N := N.of_nat (cnt (bitat ws) (512 * b)).
  Fixpoint dir (b : nat) : list N :=
    match b with
    | 0 => [rk 0]
    | S b' => dir b' ++ [pk (fld b' 7); rk (S b')]
    end.

  Lemma R_le b j : R b j <= 64 * j.
  Proof. unfold R. pose proof (cnt_diff (bitat ws) (512 * b) (512 * b + 64 * j)). lia. Qed.
  Lemma R_0 b : R b 0 = 0.
  Proof. unfold R. rewrite Nat.mul_0_r, Nat.add_0_r. lia. Qed.
  Lemma fld_S b s : fld b (S s) = N.of_nat (R b (S s)) :: fld b s.
  Proof. unfold fld. rewrite seq_S, rev_app_distr. reflexivity. Qed.
  Lemma fld_length b s : length (fld b s) = s.
  Proof. unfold fld. now rewrite map_length, rev_length, seq_length. Qed.
  Lemma fld_fields b s : s <= 7 -> fields9 (fld b s).
  Proof.
    intros H. apply Forall_forall. intros x Hx. apply in_map_iff in Hx as (j & <- & Hj). apply in_rev, in_seq in Hj. pose proof (R_le b j). lia.
  Qed.
  Lemma nth_fld b j : j <= 7 -> nth (7 - j) (fld b 7) 0%N = N.of_nat (R b j).
  Proof. intros H. do 8 (destruct j as [|j]; [try reflexivity; now rewrite R_0|]). lia. Qed.

  Lemma push_field_pk l x : fields9 l -> length l <= 6 -> (x < 512)%N -> push_field (pk l) x = pk (x :: l).
  Proof.
    intros Hl Hn Hx. pose proof (pk_lt l Hl) as L.
    assert (L6 : (pk l < 512 ^ 6)%N) by (eapply N.lt_le_trans; [exact L|apply N.pow_le_mono_r; lia]).
    assert (E6 : (512 * 512 ^ 6 < W64)%N) by reflexivity.
    unfold push_field. rewrite N.shiftl_mul_pow2. change (2 ^ 9)%N with 512%N. rewrite wrap_small by lia. apply tb_ext. intros i. cbn [pk]. rewrite tb_lane9 by assumption.
    rewrite tb_lor. replace (pk l * 512)%N with (0 + 512 * pk l)%N by lia. rewrite tb_lane9 by lia. destruct (Nat.ltb_spec i 9); [now rewrite tb_of|].
    rewrite (field_high x) by assumption. apply orb_false_r.
  Qed.
  Lemma pad_fields_pk n : forall l x, fields9 l -> length l + n <= 7 -> (x < 512)%N -> pad_fields n (pk l) x = pk (repeat x n ++ l).
  Proof.
    induction n as [|n IH]; intros l x Hl Hn Hx; [reflexivity|]. cbn [pad_fields]. rewrite push_field_pk by (assumption || lia).
    rewrite IH; [|now constructor|cbn [length]; lia|assumption]. f_equal.
    change (x :: l) with ([x] ++ l). rewrite app_assoc. change (repeat x (S n)) with ([x] ++ repeat x n). f_equal. now rewrite <- repeat_cons.
  Qed.

  Lemma cnt_word i : cnt f (64 * (i + 1)) = cnt f (64 * i) + cnt (tb (nth i ws 0%N)) 64.
  Proof. replace (64 * (i + 1)) with (64 * i + 64) by lia. rewrite cnt_app. f_equal. apply cnt_ext. intros j Hj. unfold f. now rewrite bitat_eq. Qed.
  Lemma cnt_over i : 64 * length ws <= i -> cnt f i = cnt f (64 * length ws).
  Proof. intros H. apply cnt_const; [assumption|]. intros x Hx. unfold f. apply bitat_high. lia. Qed.

  Definition dir_inv (i : nat) (s : rsb) : Prop :=
    exists b t, t < 8 /\ i = 8 * b + t /\ g_pairs s = dir b /\ g_next s = N.of_nat (cnt f (64 * i)) /\ g_cur s = N.of_nat (R b t) /\ g_sub s = pk (fld b (t - 1)).
  Lemma divmod8 b t : t < 8 -> (8 * b + t) mod 8 = t /\ (8 * b + t) / 8 = b.
  Proof. intros H. split; [symmetry; apply (Nat.mod_unique _ 8 b); lia|symmetry; apply (Nat.div_unique _ 8 b t); lia]. Qed.
  Lemma dir_word i w s : i < length ws -> w = nth i ws 0%N -> dir_inv i s -> dir_inv (i + 1) (rsb_word i w s).
  Proof.
    intros Hi Ew (b & t & Ht & Ei & Hp & Hn & Hc & Hs). unfold rsb_word. assert (Em : i mod 8 = t) by (rewrite Ei; now apply divmod8). rewrite Em.
    assert (Hpop : popcount w = cnt (tb w) 64) by (apply popcount_cnt; subst w; now apply nth_word).
    assert (Hsub : (if t =? 0 then g_sub s else push_field (g_sub s) (g_cur s)) = pk (fld b t)).
    { destruct (Nat.eqb_spec t 0) as [->|]; [exact Hs|]. rewrite Hs, Hc. pose proof (R_le b t). rewrite push_field_pk; [|apply fld_fields; lia|rewrite fld_length; lia|lia].
      destruct t as [|t]; [lia|]. rewrite fld_S. cbn [Nat.sub]. now rewrite Nat.sub_0_r. }
    rewrite Hsub.
    assert (Hnext : (g_next s + N.of_nat (popcount w))%N = N.of_nat (cnt f (64 * (i + 1)))).
    { rewrite Hn, Hpop, cnt_word. subst w. lia. }
    assert (Hcur : (g_cur s + N.of_nat (popcount w))%N = N.of_nat (R b (t + 1))).
    { rewrite Hc, Hpop. unfold R. fold f. replace (512 * b + 64 * (t + 1)) with (64 * (i + 1)) by lia. replace (512 * b + 64 * t) with (64 * i) by lia.
      rewrite cnt_word. subst w. pose proof (cnt_mono f (512 * b) (64 * i)). lia. }
    rewrite Hnext, Hcur. destruct (Nat.eqb_spec t 7) as [->|].
    - exists (b + 1), 0. cbn [g_pairs g_next g_cur g_sub]. split; [lia|]. split; [lia|]. split; [|split; [reflexivity|split; [now rewrite R_0|reflexivity]]].
      rewrite (Nat.add_1_r b). cbn [dir]. rewrite Hp. unfold rk. fold f. replace (512 * S b) with (64 * (i + 1)) by lia. reflexivity.
    - exists b, (t + 1). cbn [g_pairs g_next g_cur g_sub]. split; [lia|]. split; [lia|]. split; [assumption|]. split; [reflexivity|]. split; [reflexivity|].
      do 2 f_equal. lia.
  Qed.
  Lemma dir_words vs : forall i s, skipn i ws = vs -> i <= length ws -> dir_inv i s -> dir_inv (length ws) (rsb_words i vs s).
  Proof.
    induction vs as [|w vs IH]; intros i s E Hi Hinv; cbn [rsb_words].
    - assert (length (skipn i ws) = 0) by now rewrite E. rewrite skipn_length in *. replace (length ws) with i by lia. assumption.
    - assert (Hl : length (skipn i ws) = S (length vs)) by now rewrite E. rewrite skipn_length in Hl.
      apply IH; [rewrite Nat.add_1_r; now apply (skipn_cons_inv ws i w)|lia|]. apply dir_word; [lia| |assumption].
      replace (nth i ws 0%N) with (nth 0 (skipn i ws) 0%N) by (rewrite nth_skipn'; f_equal; lia). now rewrite E.
  Qed.

  Definition nb : nat := (length ws + 7) / 8.
  Lemma dir_length b : length (dir b) = 2 * b + 1.
  Proof. induction b as [|b IH]; [reflexivity|]. cbn [dir]. rewrite app_length, IH. cbn [length]. lia. Qed.
  Lemma pairs_dir : rs_build_pairs ws = dir nb ++ [0%N].
  Proof.
    unfold rs_build_pairs. destruct (dir_words ws 0 {| g_pairs := [0%N]; g_next := 0; g_cur := 0; g_sub := 0 |} eq_refl (Nat.le_0_l _)) as (b & t & Ht & Ei & Hp & Hn & Hc & Hs).
    { exists 0, 0. repeat split; try lia. }
    set (s := rsb_words 0 ws _) in *. assert (Em : length ws mod 8 = t) by (rewrite Ei; now apply divmod8). rewrite Em. rewrite Hp, Hc, Hs, Hn.
    destruct (Nat.eqb_spec t 0) as [->|Ht0].
    - replace nb with b by (unfold nb; rewrite Ei; replace (8 * b + 0 + 7) with (8 * b + 7) by lia; symmetry; apply divmod8; lia). rewrite R_0. reflexivity.
    - replace nb with (S b) by (unfold nb; rewrite Ei; replace (8 * b + t + 7) with (8 * (S b) + (t - 1)) by lia; symmetry; apply divmod8; lia).
      cbn [dir]. pose proof (R_le b t). rewrite pad_fields_pk; [|apply fld_fields; lia|rewrite fld_length; lia|lia]. rewrite <- !app_assoc. cbn [app].
      assert (HR : forall j, t <= j -> R b j = R b t).
      { intros j Hj. unfold R. fold f. rewrite (cnt_over (512 * b + 64 * j)) by lia. replace (512 * b + 64 * t) with (64 * length ws) by lia. reflexivity. }
      f_equal. f_equal.
      + f_equal. destruct t as [|[|[|[|[|[|[|[|t]]]]]]]]; try lia; cbn [Nat.sub repeat app]; rewrite !fld_S; cbn [app];
        repeat match goal with |- context [R b ?j] => match goal with H : forall j, ?t <= j -> _ |- _ => progress rewrite (H j) by lia end end; reflexivity.
      + f_equal. unfold rk. fold f. f_equal. rewrite (cnt_over (512 * S b)) by lia. reflexivity.
  Qed.
  Lemma dir_nth b : forall c, c <= b -> nth_error (dir b) (2 * c) = Some (rk c) /\ (c < b -> nth_error (dir b) (2 * c + 1) = Some (pk (fld c 7))).
  Proof.
    induction b as [|b IH]; intros c Hc.
    - replace c with 0 by lia. split; [reflexivity|lia].
    - cbn [dir]. destruct (Nat.eq_dec c (S b)) as [->|].
      + split; [|lia]. rewrite nth_error_app2, dir_length by (rewrite dir_length; lia). replace (2 * S b - (2 * b + 1)) with 1 by lia. reflexivity.
      + destruct (IH c ltac:(lia)) as [H1 H2]. split; [rewrite nth_error_app1 by (rewrite dir_length; lia); assumption|]. intros _.
        destruct (Nat.eq_dec c b) as [->|]; [rewrite nth_error_app2, dir_length, Nat.sub_diag by (rewrite dir_length; lia); reflexivity|].
        rewrite nth_error_app1 by (rewrite dir_length; lia). apply H2. lia.
  Qed.

  Variable r : rsv.
  Hypothesis Hr : v_words (rs_bv r) = ws.
  Hypothesis Hpairs : rs_pairs r = rs_build_pairs ws.

  Lemma num_blocks_ok : rs_num_blocks r = nb.
  Proof.
    unfold rs_num_blocks. rewrite Hpairs, pairs_dir, app_length, dir_length. cbn [length]. replace (2 * nb + 1 + 1) with ((nb + 1) * 2) by lia.
    rewrite Nat.div_mul by lia. lia.
  Qed.
  Lemma block_rank_ok b : b <= nb -> block_rank r b = Ok (rk b).
  Proof.
    intros H. unfold block_rank. apply get_ok. rewrite Hpairs, pairs_dir. rewrite nth_error_app1 by (rewrite dir_length; lia). rewrite Nat.mul_comm. now apply dir_nth.
  Qed.
  Lemma sub_ranks_ok b : b < nb -> sub_block_ranks r b = Ok (pk (fld b 7)).
  Proof.
    intros H. unfold sub_block_ranks. apply get_ok. rewrite Hpairs, pairs_dir. rewrite nth_error_app1 by (rewrite dir_length; lia). rewrite (Nat.mul_comm b). now apply dir_nth; [lia|].
  Qed.
  Lemma nb_bounds : length ws <= 8 * nb /\ 8 * nb <= length ws + 7.
  Proof. unfold nb. pose proof (Nat.div_mod (length ws + 7) 8). pose proof (Nat.mod_upper_bound (length ws + 7) 8). lia. Qed.
  Lemma num_ones_ok : rs_num_ones r = Ok (cnt f (64 * length ws)).
  Proof.
    unfold rs_num_ones. pose proof nb_bounds. rewrite Hpairs, pairs_dir, app_length, dir_length. cbn [length]. destruct (Nat.ltb_spec (2 * nb + 1 + 1) 2); [lia|].
    rewrite (get_ok _ _ (rk nb)).
    - cbn [bind]. unfold rk. rewrite Nat2N.id. fold f. rewrite cnt_over by lia. reflexivity.
    - rewrite nth_error_app1 by (rewrite dir_length; lia). replace (2 * nb + 1 + 1 - 2) with (2 * nb) by lia. now apply dir_nth.
  Qed.
  Lemma sub_block_rank_ok i : i < length ws -> sub_block_rank r i = Ok (N.of_nat (cnt f (64 * i))).
  Proof.
    intros H. pose proof nb_bounds. pose proof (Nat.div_mod i 8) as Ed. pose proof (Nat.mod_upper_bound i 8) as Hm. unfold sub_block_rank.
    set (b := i / 8) in *. set (t := i mod 8) in *. rewrite block_rank_ok, sub_ranks_ok by lia. cbn [bind].
    destruct (pk_field (fld b 7) (7 - t)) as (y & -> & Ey); [apply fld_fields; lia|apply fld_length|lia|]. cbn [bind]. rewrite Ey, nth_fld by lia. f_equal.
    unfold rk, R. fold f. replace (64 * i) with (512 * b + 64 * t) by lia. pose proof (cnt_mono f (512 * b) (512 * b + 64 * t)). lia.
  Qed.
  Lemma cnt_shift (g : nat -> bool) d n : d <= n -> cnt (fun i => (d <=? i) && g (i - d)) n = cnt g (n - d).
  Proof.
    intros H. replace n with (d + (n - d)) at 1 by lia. rewrite cnt_app, cnt_zero.
    - cbn [Nat.add]. apply cnt_ext. intros j _. destruct (Nat.leb_spec d (d + j)); [|lia]. cbn [andb]. f_equal. lia.
    - intros j Hj. destruct (Nat.leb_spec d j); [lia|reflexivity].
  Qed.
  Lemma rank_ok pos : v_size (rs_bv r) <= 64 * length ws -> (forall i, v_size (rs_bv r) <= i -> f i = false) -> pos <= v_size (rs_bv r) ->
    rs_rank r pos = Ok (cnt f pos).
  Proof.
    intros Hsz Hbeyond Hpos. unfold rs_rank. destruct (Nat.eqb_spec pos (v_size (rs_bv r))) as [->|Hne].
    - rewrite num_ones_ok. f_equal. apply cnt_const; [assumption|]. intros x Hx. apply Hbeyond. lia.
    - destruct (dm64 pos) as (a & c & Hc & Ep). replace (pos / 64) with a by (rewrite Ep; symmetry; now apply div64). replace (pos mod 64) with c by (rewrite Ep; symmetry; now apply mod64). rewrite sub_block_rank_ok by lia. cbn [bind]. rewrite Nat2N.id.
      destruct (Nat.eqb_spec c 0) as [->|]; [rewrite Ep, Nat.add_0_r; reflexivity|]. rewrite Hr, (get_nth _ _ 0%N) by lia. cbn [bind].
      rewrite shl_ok by lia. cbn [bind]. rewrite popcount_cnt by apply wrap_lt. f_equal. rewrite Ep, cnt_app. f_equal.
      rewrite (cnt_ext _ (fun i => (64 - c <=? i) && tb (nth a ws 0%N) (i - (64 - c)))).
      + rewrite cnt_shift by lia. replace (64 - (64 - c)) with c by lia. apply cnt_ext. intros j Hj. unfold f. rewrite bitat_eq by lia. reflexivity.
      + intros j Hj. rewrite tb_wrap, tb_shiftl. destruct (Nat.ltb_spec j 64); [reflexivity|lia].
  Qed.

  (** ** Select *)
  Variable neg : bool.
  Let g := gbit neg ws.

  Lemma rank_of_ok b : b <= nb -> block_rank_of neg r b = Ok (N.of_nat (cnt g (512 * b))).
  Proof.
    intros H. unfold g, block_rank_of, block_rank0. destruct neg; rewrite block_rank_ok by assumption; [|reflexivity]. cbn [bind]. unfold rk.
    pose proof (cnt_negb (bitat ws) (512 * b)). unfold gbit. f_equal. lia.
  Qed.

  Definition hints_inv (i : nat) (threshold : N) (acc : list nat) : Prop :=
    threshold = (1024 * N.of_nat (length acc + 1))%N /\ (N.of_nat (cnt g (512 * i)) <= threshold)%N /\
    forall c h, nth_error acc c = Some h -> h < nb /\ cnt g (512 * h) <= 1024 * (c + 1) < cnt g (512 * (h + 1)).
  Definition hints_ok (h : list nat) : Prop :=
    exists acc, h = acc ++ [nb] /\ cnt g (512 * nb) <= 1024 * (length acc + 1) /\
      forall c h, nth_error acc c = Some h -> h < nb /\ cnt g (512 * h) <= 1024 * (c + 1) < cnt g (512 * (h + 1)).
  Lemma hints_go_ok n : forall i threshold acc, i + n = nb -> hints_inv i threshold acc ->
    exists h, rs_hints_go neg r n i threshold acc = Ok h /\ hints_ok h.
  Proof.
    induction n as [|n IH]; intros i threshold acc Hn (Ht & Hi & Hacc); cbn [rs_hints_go].
    - eexists. split; [reflexivity|]. exists acc. rewrite num_blocks_ok. split; [reflexivity|]. replace nb with i by lia. split; [lia|].
      intros c h Hc. replace i with nb by lia. now apply Hacc.
    - rewrite rank_of_ok by lia. cbn [bind]. pose proof (cnt_diff g (512 * i) (512 * (i + 1)) ltac:(lia)) as Hd.
      destruct (N.ltb_spec threshold (N.of_nat (cnt g (512 * (i + 1))))) as [Hlt|Hge]; apply IH; try lia.
      + split; [rewrite app_length; cbn [length]; lia|]. split; [lia|]. intros c h Hc. destruct (Nat.lt_ge_cases c (length acc)).
        * rewrite nth_error_app1 in Hc by assumption. now apply Hacc.
        * rewrite nth_error_app2 in Hc by assumption. destruct (c - length acc) as [|d] eqn:Ec; [|now destruct d]. injection Hc as <-. split; [lia|]. lia.
      + split; [assumption|]. split; [assumption|]. exact Hacc.
  Qed.
  Lemma hints_build_ok : exists h, rs_hints_go neg r (rs_num_blocks r) 0 1024 [] = Ok h /\ hints_ok h.
  Proof.
    apply hints_go_ok; [now rewrite num_blocks_ok|]. split; [reflexivity|]. split; [rewrite Nat.mul_0_r; cbn; lia|]. intros c h Hc. now destruct c.
  Qed.

  Lemma search_ok n p : g p = true -> cnt g p = n -> forall a b, a <= p / 512 < b -> b <= nb + 1 ->
    loop (b - a + 1) (rs_search_step neg r n) (a, b) = Ok (p / 512).
  Proof.
    intros Hp Hn a b Hab Hb.
    assert (Hiff : forall m, cnt g (512 * m) <= n <-> m <= p / 512).
    { intros m. pose proof (Nat.div_mod p 512). pose proof (Nat.mod_upper_bound p 512). split; intros H1.
      - pose proof (cnt_below g p (512 * m) n Hp Hn H1). apply Nat.div_le_lower_bound; lia.
      - rewrite <- Hn. apply cnt_mono. lia. }
    destruct (loop_ok (rs_search_step neg r n) (fun '(a, b) => a <= p / 512 < b /\ b <= nb + 1) (fun '(a, b) => b - a) (fun x => x = p / 512)) with (fuel := b - a + 1) (s := (a, b)) as (x & E & ->);
      [|split; assumption|lia|exact E].
    intros [a' b'] [H1 H2]. unfold rs_search_step. destruct (Nat.ltb_spec 1 (b' - a')); [|lia].
    pose proof (Nat.div_mod (b' - a') 2). pose proof (Nat.mod_upper_bound (b' - a') 2). set (q := (b' - a') / 2) in *.
    rewrite rank_of_ok by lia. cbn [bind]. specialize (Hiff (a' + q)).
    destruct (N.leb_spec (N.of_nat (cnt g (512 * (a' + q)))) (N.of_nat n)); lia.
  Qed.

  Definition gfld (b : nat) : list N := map (fun j => N.of_nat (cnt g (512 * b + 64 * j) - cnt g (512 * b))) (rev (seq 1 7)).
  Lemma gfld_le b j : cnt g (512 * b + 64 * j) - cnt g (512 * b) <= 64 * j.
  Proof. pose proof (cnt_diff g (512 * b) (512 * b + 64 * j)). lia. Qed.
  Lemma gfld_fields b : fields9 (gfld b).
  Proof. apply Forall_forall. intros x Hx. apply in_map_iff in Hx as (j & <- & Hj). apply in_rev, in_seq in Hj. pose proof (gfld_le b j). lia. Qed.
  Lemma gfld_nth b j : j <= 7 -> nth (7 - j) (gfld b) 0%N = N.of_nat (cnt g (512 * b + 64 * j) - cnt g (512 * b)).
  Proof. intros H. do 8 (destruct j as [|j]; [try reflexivity; rewrite Nat.mul_0_r, Nat.add_0_r, Nat.sub_diag; reflexivity|]). lia. Qed.
  Lemma gsubs_ok b : b < nb -> exists s, sub_block_ranks r b = Ok s /\ (if neg then wsub (wmul 64 inv_count_step_9) s else s) = pk (gfld b).
  Proof.
    intros H. exists (pk (fld b 7)). split; [now apply sub_ranks_ok|]. unfold gfld, g. destruct neg; [|reflexivity].
    set (X := map (fun j => N.of_nat (64 * j)) (rev (seq 1 7))). assert (EX : wmul 64 inv_count_step_9 = pk X) by reflexivity. rewrite EX.
    assert (H2 : Forall2 (fun x y => y <= x)%N X (fld b 7)).
    { unfold X, fld. clear X EX. induction (rev (seq 1 7)) as [|j l IH]; cbn [map]; [constructor|]. constructor; [pose proof (R_le b j); lia|assumption]. }
    destruct (pk_sub X (fld b 7) H2) as [E1 L1].
    assert (LX : (pk X < W64)%N) by reflexivity.
    unfold wsub. replace (pk X + W64 - pk (fld b 7))%N with (pk X - pk (fld b 7) + 1 * W64)%N by lia. unfold wrap. rewrite N.mod_add by (unfold W64; lia).
    rewrite N.mod_small by lia. rewrite E1. f_equal. unfold X, fld, R, gbit. clear E1 L1 LX H2 EX X. induction (rev (seq 1 7)) as [|j l IH]; [reflexivity|]. cbn [map map2]. f_equal; [|exact IH].
    pose proof (cnt_negb (bitat ws) (512 * b + 64 * j)). pose proof (cnt_negb (bitat ws) (512 * b)). pose proof (cnt_mono (bitat ws) (512 * b) (512 * b + 64 * j)). lia.
  Qed.

  Definition bit9 (b : bool) : N := if b then 1%N else 0%N.
  Lemma sum9_ok o : o <= 7 -> N.to_nat (N.land (N.shiftr (wmul (pk (map (fun j => bit9 (j <=? o)) (rev (seq 1 7)))) ones_step_9) 54) 7) = o.
  Proof. intros H. do 8 (destruct o as [|o]; [reflexivity|]). lia. Qed.
  Lemma mul9 x : (x < 512)%N -> wmul x ones_step_9 = pk (repeat x 7).
  Proof.
    intros H. rewrite pk_repeat. change (pk (repeat 1%N 7)) with ones_step_9. unfold wmul. apply wrap_small. unfold ones_step_9, W64. lia.
  Qed.
  Lemma offset_ok b m o : (m < 512)%N -> o <= 7 -> (forall j, 1 <= j <= 7 -> (N.of_nat (cnt g (512 * b + 64 * j) - cnt g (512 * b)) <= m)%N <-> j <= o) ->
    N.to_nat (N.land (N.shiftr (wmul (uleq_step_9 (pk (gfld b)) (wmul m ones_step_9)) ones_step_9) 54) 7) = o.
  Proof.
    intros Hm Ho Hiff. rewrite (mul9 m) by assumption. rewrite uleq_pk; [|apply gfld_fields|apply fields9_repeat; assumption|reflexivity|reflexivity].
    etransitivity; [|exact (sum9_ok o Ho)]. do 5 f_equal.
    change (repeat m 7) with (repeat m (length (gfld b))). rewrite map2_repeat_r. unfold gfld. rewrite map_map. apply map_ext_in. intros j Hj. apply in_rev, in_seq in Hj.
    specialize (Hiff j ltac:(lia)). unfold bit9. destruct (N.leb_spec (N.of_nat (cnt g (512 * b + 64 * j) - cnt g (512 * b))) m), (Nat.leb_spec j o); try reflexivity; exfalso; [|lia].
    apply Hiff in H. lia.
  Qed.

  Lemma rs_select_ok n p : (let h := if neg then rs_hints0 r else rs_hints r in h = [] \/ hints_ok h) ->
    p < 64 * length ws -> g p = true -> cnt g p = n -> rs_select neg r n = Ok p.
  Proof.
    cbn zeta. intros Hh Hp Hg Hn. pose proof nb_bounds as Hnb. pose proof (Nat.div_mod p 512 ltac:(lia)) as Ed. pose proof (Nat.mod_upper_bound p 512 ltac:(lia)) as Em.
    assert (HP : p / 512 < nb) by (apply Nat.div_lt_upper_bound; lia).
    unfold rs_select. cbv zeta. set (h := if neg then rs_hints0 r else rs_hints r) in *. set (P := p / 512) in *.
    assert (Hab : exists a b, match h with [] => Ok (0, rs_num_blocks r) | _ =>
        do a <- (if n / 1024 =? 0 then Ok 0 else get h (n / 1024 - 1)); do b <- get h (n / 1024); Ok (a, b + 1) end = Ok (a, b) /\ a <= P < b /\ b <= nb + 1).
    { destruct Hh as [->|(acc & -> & Hlast & Hacc)]; [exists 0, nb; rewrite num_blocks_ok; split; [reflexivity|lia]|].
      destruct (acc ++ [nb]) as [|h0 ht] eqn:Eh; [now destruct acc|]. rewrite <- Eh. clear Eh h0 ht.
      pose proof (Nat.div_mod n 1024 ltac:(lia)) as Ec. pose proof (Nat.mod_upper_bound n 1024 ltac:(lia)) as Ecm. set (c := n / 1024) in *.
      assert (Hnn : n < cnt g (512 * nb)) by (rewrite <- Hn; apply cnt_lt; [lia|assumption]).
      assert (Ha : exists a, (if c =? 0 then Ok 0 else get (acc ++ [nb]) (c - 1)) = Ok a /\ a <= P).
      { destruct (Nat.eqb_spec c 0); [exists 0; split; [reflexivity|lia]|].
        assert (Hc1 : c - 1 < length acc) by lia.
        destruct (nth_error acc (c - 1)) as [x|] eqn:Ex; [|apply nth_error_None in Ex; lia].
        exists x. split; [apply get_ok; rewrite nth_error_app1 by assumption; assumption|]. destruct (Hacc _ _ Ex) as [_ Hx].
        pose proof (cnt_below g p (512 * x) n Hg Hn ltac:(lia)). unfold P. apply Nat.div_le_lower_bound; lia. }
      destruct Ha as (a & -> & Ha). cbn [bind].
      assert (Hb : exists b, get (acc ++ [nb]) c = Ok b /\ P < b + 1 /\ b <= nb).
      { assert (Hcl : c <= length acc) by lia. destruct (Nat.eq_dec c (length acc)) as [->|].
        - exists nb. split; [apply get_app_hd|lia].
        - destruct (nth_error acc c) as [x|] eqn:Ex; [|apply nth_error_None in Ex; lia].
          exists x. split; [apply get_ok; rewrite nth_error_app1 by lia; assumption|]. destruct (Hacc _ _ Ex) as [Hx0 Hx].
          pose proof (cnt_above g p (512 * (x + 1)) n Hg Hn ltac:(lia)). split; [|lia]. unfold P. apply Nat.div_lt_upper_bound; lia. }
      destruct Hb as (b & -> & Hb). cbn [bind]. exists a, (b + 1). split; [reflexivity|lia]. }
    destruct Hab as (a & b & -> & Hab & Hb). cbn [bind]. unfold P. rewrite (search_ok n p Hg Hn a b Hab Hb). cbn [bind]. fold P.
    rewrite rank_of_ok by lia. cbn [bind]. destruct (gsubs_ok P HP) as (s & -> & Es). cbn [bind]. rewrite Es.
    pose proof (Nat.div_mod (p mod 512) 64 ltac:(lia)) as Eo. pose proof (Nat.mod_upper_bound (p mod 512) 64 ltac:(lia)) as Eom.
    set (o := p mod 512 / 64) in *. set (i := p mod 512 mod 64) in *. assert (Ho : o <= 7) by lia. assert (Epi : p = 512 * P + 64 * o + i) by lia.
    pose proof (cnt_mono g (512 * P) p ltac:(lia)) as Hm1. pose proof (cnt_diff g (512 * P) p ltac:(lia)) as Hm2.
    rewrite (offset_ok P _ o); [|lia|assumption|].
    - destruct (pk_field (gfld P) (7 - o) (gfld_fields P) eq_refl ltac:(lia)) as (y & -> & Ey). cbn [bind]. rewrite Ey, gfld_nth by assumption.
      pose proof (cnt_mono g (512 * P) (512 * P + 64 * o) ltac:(lia)) as Hm3. pose proof (cnt_mono g (512 * P + 64 * o) p ltac:(lia)) as Hm4.
      replace (N.to_nat _) with (n - cnt g (512 * P + 64 * o)) by lia.
      set (w := P * 8 + o). assert (Hw : w < length ws) by lia. rewrite Hr, (get_nth _ _ 0%N) by assumption. cbn [bind].
      assert (Eg : forall j, j < 64 -> tb (getter neg (nth w ws 0%N)) j = g (64 * w + j)) by (intros j Hj; unfold g; now apply getter_gbit).
      assert (Ec : forall j, j <= 64 -> cnt (tb (getter neg (nth w ws 0%N))) j = cnt g (64 * w + j) - cnt g (64 * w)).
      { intros j Hj. rewrite cnt_app. rewrite (cnt_ext _ (fun x => g (64 * w + x))) by (intros x Hx; apply Eg; lia). lia. }
      replace (512 * P + 64 * o) with (64 * w) in * by (unfold w; lia).
      destruct (select_in_word_cnt (getter neg (nth w ws 0%N)) (n - cnt g (64 * w))) as (q & -> & Hq & Hq1 & Hq2).
      + apply getter_lt. now apply nth_word.
      + rewrite Ec by lia. pose proof (cnt_lt g p (64 * w + 64) ltac:(lia) Hg). lia.
      + cbn [bind]. f_equal. rewrite Eg in Hq1 by assumption. rewrite Ec in Hq2 by lia.
        pose proof (cnt_mono g (64 * w) (64 * w + q) ltac:(lia)). apply (cnt_inj g); [replace (w * 64 + q) with (64 * w + q) by lia; assumption|assumption|].
        replace (w * 64 + q) with (64 * w + q) by lia. lia.
    - intros j Hj. split; intros H1.
      + pose proof (cnt_below g p (512 * P + 64 * j) n Hg Hn ltac:(lia)). lia.
      + pose proof (cnt_mono g (512 * P + 64 * j) p ltac:(lia)). lia.
  Qed.
End Dir.

(** ** On lists of bits *)
Record rs_ok (r : rsv) (l : list bool) : Prop := {
  ro_repr : repr (v_words (rs_bv r)) l;
  ro_size : v_size (rs_bv r) = length l;
  ro_pairs : rs_pairs r = rs_build_pairs (v_words (rs_bv r));
  ro_hints : rs_hints r = [] \/ hints_ok (v_words (rs_bv r)) false (rs_hints r);
  ro_hints0 : rs_hints0 r = [] \/ hints_ok (v_words (rs_bv r)) true (rs_hints0 r)
}.
Lemma rs_build_ok ws l h h0 : repr ws l -> exists r, rs_build {| v_words := ws; v_size := length l |} h h0 = Ok r /\ rs_bv r = {| v_words := ws; v_size := length l |} /\ rs_ok r l.
Proof.
  intros Hr. unfold rs_build. cbn [v_words rs_pairs]. set (r0 := {| rs_bv := _; rs_pairs := _; rs_hints := []; rs_hints0 := [] |}).
  assert (H1 : forall (b neg : bool), exists x, (if b then rs_hints_go neg r0 (rs_num_blocks r0) 0 1024 [] else Ok []) = Ok x /\ (x = [] \/ hints_ok ws neg x)).
  { intros b neg. destruct b; [|exists []; split; [reflexivity|now left]].
    destruct (hints_build_ok ws (repr_words _ _ Hr) r0 eq_refl neg) as (x & E & Hx). exists x. split; [exact E|now right]. }
  destruct (H1 h false) as (x & -> & Hx). cbn [bind]. destruct (H1 h0 true) as (y & -> & Hy). cbn [bind]. eexists. split; [reflexivity|]. split; [reflexivity|].
  split; cbn [rs_bv v_words v_size rs_pairs rs_hints rs_hints0]; try assumption; reflexivity.
Qed.
Lemma rs_rank_list r l pos : rs_ok r l -> pos <= length l -> rs_rank r pos = Ok (rank true l pos).
Proof.
  intros [Hr Hs Hp _ _] Hpos. pose proof (repr_fit _ _ (length l) Hr (le_n _)). rewrite (rank_ok (v_words (rs_bv r)) (repr_words _ _ Hr) r eq_refl Hp pos).
  - f_equal. rewrite rank_true. apply cnt_ext. intros j _. apply (repr_bits _ _ Hr).
  - rewrite Hs. assumption.
  - intros i Hi. rewrite (repr_bits _ _ Hr). apply nth_overflow. lia.
  - lia.
Qed.
Lemma rs_select_list neg r l k p : rs_ok r l -> is_select (negb neg) l k p -> rs_select neg r k = Ok p.
Proof.
  intros [Hr Hs Hp Hh Hh0] [H1 H2]. assert (Hlt : p < length l) by (apply nth_error_Some; congruence). pose proof (repr_fit _ _ (length l) Hr (le_n _)).
  apply (rs_select_ok (v_words (rs_bv r)) (repr_words _ _ Hr) r eq_refl Hp neg).
  - cbn zeta. destruct neg; assumption.
  - lia.
  - unfold gbit. rewrite (repr_bits _ _ Hr). rewrite (nth_error_nth _ _ false H1). now destruct neg.
  - rewrite (gbit_cnt neg _ l) by (assumption || lia). assumption.
Qed.
Lemma rs_num_ones_list r l : rs_ok r l -> rs_num_ones r = Ok (count_occ Bool.bool_dec l true).
Proof.
  intros Hok. pose proof Hok as [Hr Hs Hp _ _]. rewrite <- rank_count, <- (rs_rank_list r l) by (assumption || lia). unfold rs_rank. rewrite Hs, Nat.eqb_refl. reflexivity.
Qed.
Lemma select_unique b l k p q : is_select b l k p -> is_select b l k q -> p = q.
Proof.
  destruct b; [rewrite !select_true|rewrite !select_false]; intros [H1 H2] [H3 H4].
  - apply (cnt_inj (fun j => nth j l false)); congruence.
  - apply (cnt_inj (fun j => negb (nth j l true))); [now rewrite H1|now rewrite H3|congruence].
Qed.
Lemma select_exists b l k : k < count_occ Bool.bool_dec l b -> exists p, is_select b l k p.
Proof.
  intros H. rewrite <- rank_count in H. destruct b.
  - rewrite rank_true in H. apply cnt_select in H as (p & _ & H1 & H2). exists p. apply select_true. auto.
  - rewrite rank_false in H. apply cnt_select in H as (p & _ & H1 & H2). exists p. apply select_false. split; [|assumption]. now destruct (nth p l true).
Qed.
Lemma rank_sum l i : i <= length l -> rank true l i + rank false l i = i.
Proof.
  intros H. rewrite rank_true, rank_false. rewrite (cnt_ext (fun j => negb (nth j l true)) (fun j => negb (nth j l false))).
  - apply cnt_negb.
  - intros j Hj. f_equal. apply nth_indep. lia.
Qed.
Lemma rs_all r l : rs_ok r l ->
  rs_num_ones r = Ok (count_occ Bool.bool_dec l true) /\
  (forall i, i <= length l -> rs_rank r i = Ok (rank true l i) /\ rs_rank0 r i = Ok (rank false l i)) /\
  (forall k, k < count_occ Bool.bool_dec l true -> exists p, rs_select false r k = Ok p /\ is_select true l k p) /\
  (forall k, k < count_occ Bool.bool_dec l false -> exists p, rs_select true r k = Ok p /\ is_select false l k p).
Proof.
  intros H. split; [now apply rs_num_ones_list|]. split.
  - intros i Hi. unfold rs_rank0. rewrite (rs_rank_list r l) by assumption. cbn [bind]. split; [reflexivity|]. f_equal. pose proof (rank_sum l i Hi). lia.
  - split; intros k Hk; destruct (select_exists _ _ _ Hk) as (p & Hp); exists p; (split; [|assumption]).
    + now apply (rs_select_list false r l).
    + now apply (rs_select_list true r l).
Qed.
