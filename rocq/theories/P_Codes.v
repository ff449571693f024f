(** Integer codes round-trip. *)
From Verif Require Import Base M_Word S_Bits P_Word M_Bits P_Bits P_Rank P_BitsRead P_BitsIter P_BitsHist S_Codes M_Codes.
Local Open Scope nat_scope.

Definition glen (n : N) : nat := N.to_nat (N.log2 (n + 1)).
(** l zeros, a one, the l lowest bits of n + 1. *)
Definition gamma_code (n : N) : list bool := repeat false (glen n) ++ [true] ++ bits_of (glen n) (n + 1).
Definition delta_code (n : N) : list bool := gamma_code (N.of_nat (glen n)) ++ bits_of (glen n) (n + 1).

Definition codeable (n : N) : Prop := (n < W64 - 1)%N.
Lemma glen_lt n : codeable n -> glen n < 64.
Proof.
  intros H. unfold glen. assert (N.log2 (n + 1) < 64)%N; [|lia]. apply N.log2_lt_pow2; [lia|]. unfold codeable in H. rewrite W64_pow in H. lia.
Qed.
Lemma glen_bounds n : (2 ^ N.of_nat (glen n) <= n + 1 < 2 * 2 ^ N.of_nat (glen n))%N.
Proof. unfold glen. rewrite N2Nat.id. rewrite <- N.pow_succ_r'. apply N.log2_spec. lia. Qed.

Definition hbit n : N := (2 ^ N.of_nat (glen n))%N.
Lemma hbit_tb n i : tb (hbit n) i = (i =? glen n).
Proof. unfold hbit, tb. rewrite N.pow2_bits_eqb. destruct (Nat.eqb_spec i (glen n)) as [->|]; [apply N.eqb_refl|]. apply N.eqb_neq. lia. Qed.
Lemma nn_tb n i : glen n <= i -> tb (n + 1) i = (i =? glen n).
Proof.
  intros H. pose proof (glen_bounds n) as Hb. destruct (Nat.eqb_spec i (glen n)) as [->|].
  - unfold tb, glen. rewrite N2Nat.id. apply N.bit_log2. lia.
  - apply (proj1 (below_pow_iff (n + 1) (S (glen n)))); [|lia]. rewrite Nat2N.inj_succ, N.pow_succ_r'. lia.
Qed.
Lemma low_tb n i : tb (N.lxor (n + 1) (hbit n)) i = (i <? glen n) && tb (n + 1) i.
Proof.
  rewrite tb_lxor, hbit_tb. destruct (Nat.ltb_spec i (glen n)).
  - destruct (Nat.eqb_spec i (glen n)); [lia|]. now destruct (tb _ _).
  - rewrite nn_tb by assumption. now destruct (_ =? _).
Qed.
Lemma low_lt n : (N.lxor (n + 1) (hbit n) < 2 ^ N.of_nat (glen n))%N.
Proof. apply below_pow_iff. intros i Hi. rewrite low_tb. destruct (Nat.ltb_spec i (glen n)); [lia|reflexivity]. Qed.
Lemma low_bits n : bits_of (glen n) (N.lxor (n + 1) (hbit n)) = bits_of (glen n) (n + 1).
Proof. apply bits_of_ext. intros i Hi. rewrite low_tb. destruct (Nat.ltb_spec i (glen n)); [reflexivity|lia]. Qed.
Lemma hb_bits n : bits_of (glen n + 1) (hbit n) = repeat false (glen n) ++ [true].
Proof.
  apply nth_ext with (d := false) (d' := false); [rewrite bits_of_length, app_length, repeat_length; reflexivity|].
  intros i Hi. rewrite bits_of_length in Hi. rewrite nth_bits_of, hbit_tb, nth_app_if, nth_repeat_if, repeat_length.
  destruct (Nat.ltb_spec i (glen n + 1)); [|lia]. destruct (Nat.ltb_spec i (glen n)), (Nat.eqb_spec i (glen n)); try (exfalso; lia); cbn [andb]; [reflexivity|].
  replace (i - glen n) with 0 by lia. reflexivity.
Qed.

Lemma msb_nn n : codeable n -> wadd n 1 = (n + 1)%N /\ msb (n + 1) = Ok (glen n) /\ shl 1 (glen n) = Ok (hbit n).
Proof.
  intros H. assert (Hw : (n + 1 < W64)%N) by (unfold codeable in H; lia). split; [unfold wadd; now apply wrap_small|]. split.
  - rewrite msb_log by lia. reflexivity.
  - rewrite shl_ok by now apply glen_lt. rewrite N.shiftl_1_l. f_equal. apply wrap_small. rewrite W64_pow. apply N.pow_lt_mono_r; [lia|]. pose proof (glen_lt n H). lia.
Qed.

Lemma write_gamma_ok b l n : bvb_ok b l -> codeable n -> exists b', write_gamma b n = Ok b' /\ bvb_ok b' (l ++ gamma_code n).
Proof.
  intros Hb Hn. unfold write_gamma. destruct (msb_nn n Hn) as (-> & -> & E). cbn [bind]. rewrite E. cbn [bind].
  pose proof (glen_lt n Hn) as Hg.
  destruct (append_bits_ok b l (hbit n) (glen n + 1) Hb) as (b1 & -> & H1); [lia|apply below_pow_iff; intros i Hi; rewrite hbit_tb; apply Nat.eqb_neq; lia|].
  cbn [bind]. destruct (append_bits_ok b1 _ (N.lxor (n + 1) (hbit n)) (glen n) H1) as (b2 & -> & H2); [lia|apply low_lt|].
  exists b2. split; [reflexivity|]. rewrite hb_bits, low_bits in H2. unfold gamma_code. now rewrite <- !app_assoc in *.
Qed.
Lemma glen_small n : codeable n -> codeable (N.of_nat (glen n)).
Proof. intros H. pose proof (glen_lt n H). unfold codeable, W64. lia. Qed.
Lemma write_delta_ok b l n : bvb_ok b l -> codeable n -> exists b', write_delta b n = Ok b' /\ bvb_ok b' (l ++ delta_code n).
Proof.
  intros Hb Hn. unfold write_delta. destruct (msb_nn n Hn) as (-> & -> & E). cbn [bind]. rewrite E. cbn [bind].
  pose proof (glen_lt n Hn) as Hg.
  destruct (write_gamma_ok b l (N.of_nat (glen n)) Hb (glen_small n Hn)) as (b1 & -> & H1). cbn [bind].
  destruct (append_bits_ok b1 _ (N.lxor (n + 1) (hbit n)) (glen n) H1) as (b2 & -> & H2); [lia|apply low_lt|].
  exists b2. split; [reflexivity|]. rewrite low_bits in H2. unfold delta_code. now rewrite app_assoc.
Qed.

(** ** Reading *)
Record reads (ws : list N) (it : biter) (pos : nat) : Prop := { rd_ok : bi_ok ws it; rd_clean : bi_clean it; rd_pos : bi_pos it = pos }.
Lemma reads_new ws pos : reads ws (bi_new pos) pos.
Proof. destruct (bi_new_ok ws pos). now split. Qed.

Lemma read_fixed_ok ws pre len x post it : repr ws (pre ++ bits_of len x ++ post) -> reads ws it (length pre) -> len < 64 -> (x < 2 ^ N.of_nat len)%N ->
  exists it', bi_get_bits ws it len = Ok (x, it') /\ reads ws it' (length pre + len).
Proof.
  intros Hr [H1 H2 H3] Hl Hx.
  destruct (bi_get_bits_ok ws it len) as (r & it' & -> & Hf & Ep & Ho & Hc); [apply Hr|assumption|lia| |].
  { rewrite H3. apply (repr_fit ws _ _ Hr). rewrite !app_length, bits_of_length. lia. }
  exists it'. split.
  - do 2 f_equal. rewrite (field_number _ _ _ _ _ Hr Hf), H3. rewrite skipn_app, skipn_all, Nat.sub_diag. cbn [app skipn].
    rewrite firstn_app, bits_of_length, Nat.sub_diag, firstn_all2 by (rewrite bits_of_length; lia). cbn [firstn]. rewrite app_nil_r. now apply number_bits_of.
  - split; [assumption|now apply Hc|lia].
Qed.

Lemma lor_hbit n r : (forall i, tb r i = (i <? glen n) && tb (n + 1) i) -> codeable n -> wsub (N.lor r (hbit n)) 1 = n.
Proof.
  intros Hr Hn. replace (N.lor r (hbit n)) with (n + 1)%N.
  - unfold codeable in Hn. rewrite wsub_1 by lia. lia.
  - symmetry. apply tb_ext. intros i. rewrite tb_lor, Hr, hbit_tb. destruct (Nat.ltb_spec i (glen n)); cbn [andb].
    + destruct (Nat.eqb_spec i (glen n)); [lia|]. apply orb_false_r.
    + symmetry. now apply nn_tb.
Qed.

Lemma skip_zeros_code ws pre l post it fuel : repr ws (pre ++ repeat false l ++ [true] ++ post) -> reads ws it (length pre) -> l + 1 < fuel ->
  exists it', bi_skip_zeros ws fuel it = Ok (l, it') /\ reads ws it' (length pre + l + 1).
Proof.
  intros Hr [H1 H2 H3] Hf.
  destruct (bi_skip_zeros_ok ws it (length pre + l) fuel) as (it' & -> & Ep & Ho & Hc); rewrite ?H3; try assumption; try lia.
  - apply Hr.
  - rewrite (repr_bits _ _ Hr), !nth_app_if, repeat_length. destruct (Nat.ltb_spec (length pre + l) (length pre)); [lia|].
    destruct (Nat.ltb_spec (length pre + l - length pre) l); [lia|]. now replace (length pre + l - length pre - l) with 0 by lia.
  - intros j Hj. rewrite (repr_bits _ _ Hr), !nth_app_if, nth_repeat_if, repeat_length. destruct (Nat.ltb_spec j (length pre)); [lia|].
    destruct (Nat.ltb_spec (j - length pre) l); [reflexivity|lia].
  - exists it'. split; [do 2 f_equal; lia|]. now split.
Qed.

Lemma read_low ws pre n post it : repr ws (pre ++ bits_of (glen n) (n + 1) ++ post) -> reads ws it (length pre) -> codeable n ->
  exists r it', bi_get_bits ws it (glen n) = Ok (r, it') /\ reads ws it' (length pre + glen n) /\ wsub (N.lor r (hbit n)) 1 = n.
Proof.
  intros Hr Hit Hn. rewrite <- low_bits in Hr.
  destruct (read_fixed_ok ws pre (glen n) _ post it Hr Hit (glen_lt n Hn) (low_lt n)) as (it' & E & Hit'). eexists _, it'. split; [exact E|]. split; [assumption|].
  apply lor_hbit; [apply low_tb|assumption].
Qed.

Lemma gamma_length n : length (gamma_code n) = 2 * glen n + 1.
Proof. unfold gamma_code. rewrite !app_length, repeat_length, bits_of_length. cbn [length]. lia. Qed.

Lemma read_gamma_ok ws pre n post it fuel : repr ws (pre ++ gamma_code n ++ post) -> reads ws it (length pre) -> codeable n -> 65 < fuel ->
  exists it', read_gamma ws fuel it = Ok (n, it') /\ reads ws it' (length pre + length (gamma_code n)).
Proof.
  intros Hr Hit Hn Hf. unfold read_gamma. pose proof (glen_lt n Hn) as Hg.
  destruct (skip_zeros_code ws pre (glen n) (bits_of (glen n) (n + 1) ++ post) it fuel) as (it1 & -> & H1); [|assumption|lia|].
  { unfold gamma_code in Hr. now rewrite <- !app_assoc in Hr. }
  cbn [bind]. destruct (read_low ws (pre ++ repeat false (glen n) ++ [true]) n post it1) as (r & it2 & -> & H2 & E).
  - unfold gamma_code in Hr. now rewrite <- !app_assoc in *.
  - rewrite !app_length, repeat_length. cbn [length]. now rewrite Nat.add_assoc.
  - assumption.
  - cbn [bind]. rewrite (proj2 (proj2 (msb_nn n Hn))). cbn [bind]. rewrite E. exists it2. split; [reflexivity|].
    rewrite gamma_length. rewrite !app_length, repeat_length in H2. cbn [length] in H2.
    replace (length pre + (2 * glen n + 1)) with (length pre + (glen n + 1) + glen n) by lia. assumption.
Qed.
Lemma read_delta_ok ws pre n post it fuel : repr ws (pre ++ delta_code n ++ post) -> reads ws it (length pre) -> codeable n -> 65 < fuel ->
  exists it', read_delta ws fuel it = Ok (n, it') /\ reads ws it' (length pre + length (delta_code n)).
Proof.
  intros Hr Hit Hn Hf. unfold read_delta. unfold delta_code in *.
  destruct (read_gamma_ok ws pre (N.of_nat (glen n)) (bits_of (glen n) (n + 1) ++ post) it fuel) as (it1 & -> & H1); [now rewrite <- app_assoc in Hr|assumption|now apply glen_small|assumption|].
  cbn [bind]. rewrite Nat2N.id. destruct (read_low ws (pre ++ gamma_code (N.of_nat (glen n))) n post it1) as (r & it2 & -> & H2 & E).
  - now rewrite <- !app_assoc in *.
  - now rewrite app_length.
  - assumption.
  - cbn [bind]. rewrite (proj2 (proj2 (msb_nn n Hn))). cbn [bind]. rewrite E. exists it2. split; [reflexivity|].
    rewrite app_length in *. rewrite bits_of_length. now rewrite Nat.add_assoc.
Qed.

(** ** Streams *)
Definition int_code (c : code) (n : N) : list bool :=
  match c with
  | Gamma => gamma_code n
  | GammaNonzero => gamma_code (n - 1)
  | Delta => delta_code n
  | Fixed len => bits_of len n
  end.
Lemma write_int_ok b l c n : bvb_ok b l -> int_ok c n -> exists b', write_int b c n = Ok b' /\ bvb_ok b' (l ++ int_code c n).
Proof.
  intros Hb H. destruct c; cbn [write_int int_code int_ok] in *.
  - now apply write_gamma_ok.
  - unfold write_gamma_nonzero. rewrite wsub_1 by (rewrite W64_pow; lia). apply write_gamma_ok; [assumption|]. unfold codeable. rewrite W64_pow. lia.
  - now apply write_delta_ok.
  - apply append_bits_ok; [assumption|lia|tauto].
Qed.
Lemma read_int_ok ws pre c n post it fuel : repr ws (pre ++ int_code c n ++ post) -> reads ws it (length pre) -> int_ok c n -> 65 < fuel ->
  exists it', read_int ws fuel it c = Ok (n, it') /\ reads ws it' (length pre + length (int_code c n)).
Proof.
  intros Hr Hit H Hf. destruct c; cbn [read_int int_code int_ok] in *.
  - now apply read_gamma_ok with post.
  - unfold read_gamma_nonzero. destruct (read_gamma_ok ws pre (n - 1) post it fuel) as (it' & -> & H'); try assumption.
    { unfold codeable. rewrite W64_pow. lia. }
    cbn [bind]. exists it'. split; [|assumption]. do 2 f_equal. unfold wadd. rewrite wrap_small; [lia|]. rewrite W64_pow. lia.
  - now apply read_delta_ok with post.
  - rewrite bits_of_length. now apply read_fixed_ok with post.
Qed.
Definition ints_code (l : list (code * N)) : list bool := flat_map (fun x => int_code (fst x) (snd x)) l.
Lemma write_ints_ok xs : forall b l, bvb_ok b l -> Forall (fun x => int_ok (fst x) (snd x)) xs ->
  exists b', write_ints b xs = Ok b' /\ bvb_ok b' (l ++ ints_code xs).
Proof.
  induction xs as [|[c n] xs IH]; intros b l Hb H; cbn [write_ints].
  - exists b. split; [reflexivity|]. unfold ints_code. cbn [flat_map]. now rewrite app_nil_r.
  - inversion H as [|? ? H1 H2]; subst. destruct (write_int_ok b l c n Hb H1) as (b1 & -> & Hb1). cbn [bind].
    destruct (IH b1 _ Hb1 H2) as (b2 & -> & Hb2). exists b2. split; [reflexivity|]. unfold ints_code in *. cbn [flat_map fst snd]. now rewrite app_assoc.
Qed.
Lemma read_ints_ok ws fuel : 65 < fuel -> forall xs pre post it, repr ws (pre ++ ints_code xs ++ post) -> reads ws it (length pre) ->
  Forall (fun x => int_ok (fst x) (snd x)) xs ->
  exists it', read_ints ws fuel it (map fst xs) = Ok (map snd xs, it') /\ reads ws it' (length pre + length (ints_code xs)).
Proof.
  intros Hf. induction xs as [|[c n] xs IH]; intros pre post it Hr Hit H; cbn [read_ints map].
  - exists it. split; [reflexivity|]. cbn. now rewrite Nat.add_0_r.
  - inversion H as [|? ? H1 H2]; subst. cbn [fst snd] in *. unfold ints_code in *. cbn [flat_map fst snd] in *. rewrite <- app_assoc in Hr.
    destruct (read_int_ok ws pre c n _ it fuel Hr Hit H1 Hf) as (it1 & -> & Hit1). cbn [bind].
    destruct (IH (pre ++ int_code c n) post it1) as (it2 & -> & Hit2); [now rewrite <- app_assoc|now rewrite app_length|assumption|]. cbn [bind].
    exists it2. split; [reflexivity|]. rewrite !app_length in *. now rewrite Nat.add_assoc.
Qed.
