(** Records appended one after the other and found through pointers; the size of a compact_ef list. *)
From Coq Require Import Sorted.
From Verif Require Import Base M_Trie S_Trie M_Word S_Bits P_Word M_Bits P_Bits P_BitsRead M_Codes S_Codes P_Codes P_EfSeq M_Iter S_Iter M_EfSeq M_CompactEf P_CompactEf M_InvIndex P_Containers.
Local Open Scope nat_scope.

(** ** The size of a list *)
Lemma ofs_size base u n o : small u -> small (N.of_nat n) -> 0 < n -> ofs_new base u n = Ok o -> o_end o <= base + 400 * n.
Proof.
  intros Hu Hn H0 E. destruct (ofs_new_ok base u n Hu Hn H0) as (o' & E' & Ho). rewrite E in E'. injection E' as <-.
  assert (Hh : hpart (o_l o) u <= 2 * n).
  { unfold ofs_new in E. destruct (N.ltb_spec (N.of_nat n) u) as [L|L].
    - destruct (Nat.eqb_spec n 0); [lia|].
      assert (Hq1 : (1 <= u / N.of_nat n)%N) by (apply N.div_le_lower_bound; lia).
      assert (Hq : (u / N.of_nat n <= u)%N) by (apply N.div_le_upper_bound; [lia|nia]).
      pose proof (N.mul_succ_div_gt u (N.of_nat n) ltac:(lia)) as Hlt.
      remember (u / N.of_nat n)%N as q eqn:Eq. clear Eq. assert (q < W64)%N by (unfold small in Hu; rewrite W64_pow; assert (2 ^ 55 < 2 ^ 64)%N by reflexivity; lia).
      rewrite msb_log in E by lia. cbn [bind] in E. assert (Hl : N.to_nat (N.log2 q) <= 55).
      { assert (N.log2 q < 55)%N; [|lia]. apply N.log2_lt_pow2; [lia|]. unfold small in Hu. lia. }
      rewrite shl_ok, shr_ok in E by lia. cbn [bind] in E.
      destruct (ceil_log2_w _); cbn [bind] in E; try discriminate. injection E as E. rewrite <- E. cbn [o_l]. unfold hpart. rewrite N2Nat.id, N.shiftr_div_pow2.
      assert (Hp : (u / 2 ^ N.log2 q < 2 * N.of_nat n)%N); [|lia].
      apply N.div_lt_upper_bound; [apply N.pow_nonzero; discriminate|]. pose proof (N.log2_spec q ltac:(lia)) as [_ Hs]. rewrite N.pow_succ_r' in Hs. nia.
    - cbn [bind] in E. rewrite shl_ok, shr_ok in E by lia. cbn [bind] in E. destruct (ceil_log2_w _); cbn [bind] in E; try discriminate. injection E as E. rewrite <- E. cbn [o_l].
      unfold hpart. rewrite N.shiftr_0_r. lia. }
  destruct Ho as [_ _ Hl _ Hlen Hps _ E0 E1 E2 E3 E4]. rewrite E4, E3, E2, E1, E0.
  assert (A1 : (o_hlen o - n) / 512 * o_psize o <= (2 * n + 2) * 57).
  { apply Nat.mul_le_mono; [|assumption]. apply Nat.div_le_upper_bound; lia. }
  assert (A2 : n / 256 * o_psize o <= n * 57) by (apply Nat.mul_le_mono; [apply Nat.div_le_upper_bound; lia|assumption]).
  assert (A3 : n * o_l o <= n * 55) by (apply Nat.mul_le_mono_l; assumption).
  remember ((o_hlen o - n) / 512 * o_psize o) as a. remember (n / 256 * o_psize o) as b. remember (n * o_l o) as c. lia.
Qed.

(** ** Records *)
(** [enc x pre M]: M represents x, appended to the bits pre. *)
Section Records.
  Context {X : Type}.
  Variable write : bvb -> X -> res bvb.
  Variable enc : X -> list bool -> list bool -> Prop.
  Variable cost : X -> nat.
  Variable good : X -> Prop.
  Hypothesis Hwrite : forall b L x, bvb_ok b L -> good x ->
    exists b' M, write b x = Ok b' /\ bvb_ok b' (L ++ M) /\ enc x L M /\ length M <= cost x.

  Definition stored (xs : list X) (ptrs : list nat) (B : list bool) : Prop :=
    forall i x, nth_error xs i = Some x -> exists pre M post, B = pre ++ M ++ post /\ nth_error ptrs i = Some (length pre) /\ enc x pre M.

  Fixpoint total (xs : list X) : nat := match xs with [] => 0 | x :: xs' => cost x + total xs' end.

  Lemma add_records_ok xs : Forall good xs -> forall done ptrs b L, bvb_ok b L -> length ptrs = S (length done) -> nth_error ptrs (length done) = Some (length L) ->
    stored done ptrs L -> StronglySorted le ptrs -> Forall (fun p => p <= length L) ptrs ->
    exists ptrs' b' L', add_records write xs (ptrs, b) = Ok (ptrs', b') /\ bvb_ok b' L' /\ length ptrs' = S (length (done ++ xs)) /\
      stored (done ++ xs) ptrs' L' /\ StronglySorted le ptrs' /\ Forall (fun p => p <= length L') ptrs' /\ length L' <= length L + total xs.
  Proof.
    induction 1 as [|x xs Hx Hxs IH]; intros done ptrs b L Hb Hlen Hlast Hst Hs Hle; cbn [add_records total].
    - exists ptrs, b, L. rewrite app_nil_r. repeat (split; [assumption || reflexivity|]). lia.
    - destruct (Hwrite b L x Hb Hx) as (b1 & M & -> & Hb1 & He & HM). cbn [bind]. rewrite (bo_size _ _ Hb1).
      destruct (IH (done ++ [x]) (ptrs ++ [length (L ++ M)]) b1 (L ++ M)) as (ptrs' & b' & L' & E & R1 & R2 & R3 & R4 & R5 & R6); try assumption.
      + rewrite !app_length. cbn. lia.
      + rewrite nth_error_app2 by (rewrite app_length; cbn; lia). replace (length (done ++ [x]) - length ptrs) with 0 by (rewrite app_length; cbn [length]; lia). reflexivity.
      + intros i y Hi. destruct (Nat.lt_ge_cases i (length done)) as [L1|L1].
        * rewrite nth_error_app1 in Hi by assumption. destruct (Hst i y Hi) as (pre & M' & post & EL & Ep & He'). exists pre, M', (post ++ M). split; [rewrite EL, <- !app_assoc; reflexivity|]. split; [|assumption].
          rewrite nth_error_app1 by lia. assumption.
        * rewrite nth_error_app2 in Hi by assumption. destruct (i - length done) as [|k] eqn:Ek; [|destruct k; discriminate]. injection Hi as <-. replace i with (length done) by lia.
          exists L, M, []. rewrite app_nil_r. split; [reflexivity|]. split; [|assumption]. rewrite nth_error_app1 by lia. assumption.
      + clear -Hs Hle. rewrite app_length. induction Hs as [|p ps Hps IH Hp]; cbn [app]; [repeat constructor|]. inversion Hle; subst. constructor; [now apply IH|]. apply Forall_app. split; [assumption|]. constructor; [lia|constructor].
      + apply Forall_app. split; [|constructor; [lia|constructor]]. eapply Forall_impl; [|exact Hle]. cbn. intros p Hp. rewrite app_length. lia.
      + exists ptrs', b', L'. rewrite <- app_assoc in *. cbn [app] in *. split; [assumption|]. repeat (split; [assumption|]). rewrite app_length in R6. lia.
  Qed.

  Lemma nth_error_removelast {A} (l : list A) i : S i < length l -> nth_error (removelast l) i = nth_error l i.
  Proof. revert i; induction l as [|a l IH]; intros i; cbn [length]; [lia|]. intros H. destruct l as [|a' l]; [cbn in H; lia|]. destruct i; [reflexivity|]. cbn [removelast nth_error]. apply IH. cbn [length] in *. lia. Qed.
  Lemma in_removelast {A} (l : list A) x : In x (removelast l) -> In x l.
  Proof. induction l as [|a l IH]; [auto|]. destruct l; [cbn; tauto|]. intros [->|H]; [now left|right; now apply IH]. Qed.
  Lemma sorted_removelast (l : list nat) : StronglySorted le l -> StronglySorted le (removelast l).
  Proof.
    induction 1 as [|a l Hs IH Ha]; [constructor|]. destruct l as [|a' l]; [constructor|]. change (removelast (a :: a' :: l)) with (a :: removelast (a' :: l)). constructor; [assumption|].
    apply Forall_forall. intros x Hx. rewrite Forall_forall in Ha. apply Ha. now apply in_removelast.
  Qed.
  Lemma length_removelast {A} (l : list A) n : length l = S n -> length (removelast l) = n.
  Proof. revert n; induction l as [|a l IH]; intros n H; [discriminate|]. destruct l as [|a' l]; [cbn in *; lia|]. change (removelast (a :: a' :: l)) with (a :: removelast (a' :: l)). destruct n; [discriminate|]. cbn [length]. f_equal. apply IH. cbn in *. lia. Qed.

  Lemma build_records_ok xs : xs <> [] -> Forall good xs -> (N.of_nat (total xs) < W64)%N ->
    exists r B, build_records write xs = Ok r /\ repr (v_words (r_data r)) B /\ q_size (r_ptrs r) = length xs /\
      forall i x, nth_error xs i = Some x -> exists pre M post, B = pre ++ M ++ post /\ record_at r i = Ok (length pre) /\ enc x pre M.
  Proof.
    intros Hne Hg Htot. unfold build_records.
    destruct (add_records_ok xs Hg [] [0] bvb_empty []) as (ptrs & b & B & E & R1 & R2 & R3 & R4 & R5 & R6); try reflexivity.
    - apply empty_ok.
    - intros i x Hi. destruct i; discriminate.
    - repeat constructor.
    - repeat constructor.
    - rewrite E. cbn [bind app length] in *. rewrite Nat.add_0_l in R6.
      assert (Hl : length (removelast ptrs) = length xs) by now apply length_removelast.
      destruct (ef_seqc_ok (map N.of_nat (removelast ptrs))) as (q & Eq & Hq1 & Hq2).
      + split; [|now apply sorted_N_of_nat, sorted_removelast]. intros E0. apply map_eq_nil in E0. rewrite E0 in Hl. destruct xs; [congruence|discriminate].
      + apply Forall_map, Forall_forall. intros p Hp. rewrite Forall_forall in R5. specialize (R5 p (in_removelast _ _ Hp)). lia.
      + rewrite Eq. cbn [bind]. eexists _, B. split; [reflexivity|]. cbn [r_data r_ptrs bv_build v_words]. split; [apply R1|].
        rewrite map_length, Hl in *. split; [assumption|].
        intros i x Hi. destruct (R3 i x Hi) as (pre & M & post & EB & Ep & He). exists pre, M, post. split; [assumption|]. split; [|assumption].
        unfold record_at. cbn [r_ptrs]. assert (Hix : i < length xs) by (apply nth_error_Some; congruence).
        destruct Hq2 as [Hq2 _]. rewrite Hq2 by (rewrite map_length, Hl; assumption). cbn [bind]. f_equal.
        rewrite <- nth_error_removelast in Ep by lia. rewrite (nth_indep _ 0%N (N.of_nat 0)) by (rewrite map_length, Hl; assumption). rewrite map_nth, Nat2N.id. now apply nth_error_nth.
  Qed.
End Records.
