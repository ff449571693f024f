(** The numbers in dictionaries, posting lists and forward lists fit their C++ types. *)
From Coq Require Import ZArith Lia Sorted.
From Verif Require Import Base M_Fc M_IntFc M_Iter S_Iter M_Trie S_Trie M_Containers P_Containers M_Word S_Bits P_Word M_Bits P_Bits M_Cvec P_Cvec M_EfSeq P_EfSeq M_CompactEf P_CompactEf M_InvIndex P_Records P_InvIndex P_Real M_Stored P_Save P_Fit.
Local Open Scope nat_scope.

(** ** Front-coded dictionaries *)
Section Buckets.
  Variable wr : list N -> list N -> res (list N).
  Variable wh : list N -> list N.
  Variables PH PB : N -> Prop.
  Variable Q : list N -> Prop.
  Variable cost : list N -> nat.
  Hypothesis Hwr : forall prev s e, Q s -> wr prev s = Ok e -> Forall PB e /\ length e <= cost s.
  Hypothesis Hwh : forall s, Q s -> Forall PH (wh s) /\ length (wh s) <= cost s.
  Fixpoint costs (l : list (list N)) : nat := match l with [] => 0 | s :: l' => cost s + costs l' end.

  Lemma bucket_range : forall k prev input mb mb' input', Forall Q input -> Forall PB mb -> fc_write_bucket wr k prev input mb = Ok (mb', input') ->
    Forall PB mb' /\ Forall Q input' /\ length mb <= length mb' /\ length mb' + costs input' <= length mb + costs input.
  Proof.
    induction k as [|k IH]; intros prev input mb mb' input' HQ HB E; cbn [fc_write_bucket] in E.
    - injection E as <- <-. auto with arith.
    - destruct input as [|s input]; [discriminate E|]. destruct (wr prev s) as [e| | |] eqn:Ee; try discriminate E. cbn [bind] in E.
      inversion HQ as [|? ? Hs HQ']; subst. destruct (Hwr _ _ _ Hs Ee) as [He Hl].
      apply IH in E as (A & B & C & D); [|assumption|apply Forall_app; auto]. rewrite app_length in C, D. cbn [costs] in *. repeat split; try assumption; lia.
  Qed.
  Lemma buckets_range tail : forall r input ph pb hd mb ph' pb' hd' mb', Forall Q input -> Forall PB mb -> Forall PH hd ->
    Forall (fun p => p <= length hd) ph -> Forall (fun p => p <= length mb) pb ->
    fc_write_buckets wr wh r tail input ph pb hd mb = Ok (ph', pb', hd', mb') ->
    Forall PB mb' /\ Forall PH hd' /\ Forall (fun p => p <= length hd') ph' /\ Forall (fun p => p <= length mb') pb' /\
    length ph' = length ph + r /\ length pb' = length pb + r /\ length hd' + length mb' <= length hd + length mb + costs input.
  Proof.
    induction r as [|r IH]; intros input ph pb hd mb ph' pb' hd' mb' HQ HB HH Hph Hpb E; cbn [fc_write_buckets] in E.
    - injection E as <- <- <- <-. repeat (split; [assumption || lia|]). lia.
    - destruct input as [|s input]; [discriminate E|]. inversion HQ as [|? ? Hs HQ']; subst. destruct (Hwh _ Hs) as [Hh Hl].
      destruct (fc_write_bucket _ _ _ _ _) as [[mb1 input1]| | |] eqn:Eb; try discriminate E. cbn [bind] in E.
      apply bucket_range in Eb as (A & B & C & D); [|assumption..].
      apply IH in E as (R1 & R2 & R3 & R4 & R5 & R6 & R7); try assumption.
      + rewrite !app_length in *. cbn [length] in *. cbn [costs] in *. repeat (split; [assumption || lia|]). lia.
      + now apply Forall_app.
      + apply Forall_app. split; [|repeat constructor]. eapply Forall_impl; [|exact Hph]. cbn. intros p Hp. rewrite app_length. lia.
      + apply Forall_app. split; [|repeat constructor]. eapply Forall_impl; [|exact Hpb]. cbn. lia.
  Qed.
End Buckets.

Lemma mod256 x : (x mod 256 < 256)%N.
Proof. apply N.mod_lt. discriminate. Qed.
Lemma fc_num_buckets_le n : fc_num_buckets n <= n + 1.
Proof. unfold fc_num_buckets, BUCKET. apply Nat.div_le_upper_bound; lia. Qed.
Lemma zeros_bytes n : Forall (fun x => (x < 256)%N) (repeat 0%N n).
Proof. apply Forall_forall. intros x Hx. apply repeat_spec in Hx as ->. reflexivity. Qed.
Lemma costs_linear a b (l : list (list N)) : costs (fun s => a * length s + b) l = a * length (concat l) + b * length l.
Proof. induction l as [|s l IH]; cbn [costs concat length]; [lia|]. rewrite app_length, IH. lia. Qed.

Lemma dict_fit terms d : Forall (Forall (fun x => (x < 256)%N)) terms -> (N.of_nat (length (concat terms) + 2 * length terms) < 4294967296)%N ->
  fc_build terms = Ok d -> fit_dict d.
Proof.
  intros Hb Hs E. unfold fc_build in E. destruct (fc_write_buckets _ _ _ _ _ _ _ _ _) as [[[[ph pb] hd] mb]| | |] eqn:Eb; try discriminate E. cbn [bind] in E.
  assert (Ed : Fcd (length terms) ph pb hd (mb ++ repeat 0%N MAX_CHARS) = d) by congruence. subst d. clear E.
  apply (buckets_range _ _ (fun x => (x < 256)%N) (fun x => (x < 256)%N) (Forall (fun x => (x < 256)%N)) (fun s => 1 * length s + 2)) in Eb; try assumption; try (repeat constructor; fail).
  - rewrite costs_linear in Eb. destruct Eb as (R1 & R2 & R3 & R4 & R5 & R6 & R7). cbn [length] in R5, R6, R7. pose proof (fc_num_buckets_le (length terms)).
    constructor; cbn [fc_size fc_ph fc_pb fc_hdrs fc_bkts].
    + unfold in64, W64. lia.
    + split; [unfold long, W64; lia|]. eapply Forall_impl; [|exact R3]. unfold in32. cbn. lia.
    + split; [unfold long, W64; lia|]. eapply Forall_impl; [|exact R4]. unfold in32. cbn. lia.
    + split; [unfold long, W64; lia|assumption].
    + split; [unfold long, W64; rewrite app_length, repeat_length; unfold MAX_CHARS; lia|]. apply Forall_app. split; [assumption|apply zeros_bytes].
  - intros prev s e Hq Ew. injection Ew as <-. unfold fc_write. split.
    + repeat (constructor; [apply mod256|]). rewrite Forall_forall in *. intros x Hx. apply Hq. rewrite <- (firstn_skipn (lcp s prev) s). apply in_or_app. now right.
    + cbn [app length]. rewrite skipn_length. lia.
  - intros s Hq. split; [assumption|lia].
Qed.
Lemma le32_bytes l : Forall (fun x => (x < 256)%N) (flat_map le32 l) /\ length (flat_map le32 l) = 4 * length l.
Proof.
  induction l as [|x l [IH1 IH2]]; [split; [constructor|reflexivity]|]. cbn [flat_map]. split.
  - apply Forall_app. split; [|assumption]. unfold le32. repeat (constructor; [apply mod256|]). constructor.
  - rewrite app_length, IH2. cbn. lia.
Qed.
Lemma idict_fit comps d : Forall (Forall (fun x => (x < 4294967296)%N)) comps -> (N.of_nat (length (concat comps)) <= 1125899906842624)%N -> few (length comps) ->
  ifc_build comps = Ok d -> fit_idict d.
Proof.
  intros Hb Hs Hf E. unfold few in Hf. unfold ifc_build in E. destruct (fc_write_buckets _ _ _ _ _ _ _ _ _) as [[[[ph pb] hd] mb]| | |] eqn:Eb; try discriminate E. cbn [bind] in E.
  assert (Ed : Fcd (length comps) ph pb hd (mb ++ repeat 0%N (MAX_TERMS * 4)) = d) by congruence. subst d. clear E.
  apply (buckets_range _ _ (fun x => (x < 4294967296)%N) (fun x => (x < 256)%N) (Forall (fun x => (x < 4294967296)%N)) (fun s => 4 * length s + 2)) in Eb; try assumption; try (repeat constructor; fail).
  - rewrite costs_linear in Eb. destruct Eb as (R1 & R2 & R3 & R4 & R5 & R6 & R7). cbn [length] in R5, R6, R7. pose proof (fc_num_buckets_le (length comps)).
    constructor; cbn [fc_size fc_ph fc_pb fc_hdrs fc_bkts].
    + unfold in64, W64. lia.
    + split; [unfold long, W64; lia|]. eapply Forall_impl; [|exact R3]. unfold in64, W64. cbn. lia.
    + split; [unfold long, W64; lia|]. eapply Forall_impl; [|exact R4]. unfold in64, W64. cbn. lia.
    + split; [unfold long, W64; lia|assumption].
    + split; [unfold long, W64; rewrite app_length, repeat_length; unfold MAX_TERMS; lia|]. apply Forall_app. split; [assumption|apply zeros_bytes].
  - intros prev s e Hq Ew. unfold ifc_write in Ew. destruct (_ <? _); [discriminate Ew|]. injection Ew as <-. match goal with |- context [flat_map le32 ?l] => destruct (le32_bytes l) as [L1 L2]; remember (flat_map le32 l) as bs end. split.
    + repeat (constructor; [apply mod256|]). assumption.
    + cbn [app length]. rewrite L2, firstn_length, skipn_length. lia.
  - intros s Hq. unfold ifc_write_header. split.
    + rewrite Forall_forall in *. intros x Hx. apply Hq. rewrite <- (firstn_skipn (length s - 1) s). apply in_or_app. now left.
    + rewrite firstn_length. lia.
Qed.

(** ** Records: posting lists and the lists of the blocked index *)
Section RecordsFit.
  Context {X : Type}.
  Variable write : bvb -> X -> res bvb.
  Variable enc : X -> list bool -> list bool -> Prop.
  Variable cost : X -> nat.
  Variable okx : X -> Prop.
  Hypothesis Hwrite : forall b L x, bvb_ok b L -> okx x ->
    exists b' M, write b x = Ok b' /\ bvb_ok b' (L ++ M) /\ enc x L M /\ length M <= cost x.
  Lemma records_fit xs e v : xs <> [] -> few (length xs) -> Forall okx xs -> (N.of_nat (total cost xs) < 9223372036854775808)%N -> records_d write xs = Ok (e, v) -> fit_efs e /\ fit_bv v.
  Proof.
    intros Hne Hf Hg Htot E. unfold records_d in E.
    destruct (add_records_ok write enc cost okx Hwrite xs Hg [] [0] bvb_empty []) as (ptrs & b & B & E1 & R1 & R2 & _ & R4 & R5 & R6); try reflexivity.
    - apply empty_ok.
    - intros i x Hi. destruct i; discriminate.
    - repeat constructor.
    - repeat constructor.
    - rewrite E1 in E. cbn [bind app length] in *. destruct (ef_build _) as [e'| | |] eqn:Ee; try discriminate E. injection E as <- <-.
      assert (Hl : length (removelast ptrs) = length xs) by now apply length_removelast. split.
      + apply (ef_fit (map N.of_nat (removelast ptrs))); [|apply Forall_map, Forall_forall; intros p Hp|unfold few in *; rewrite map_length; lia|exact Ee].
        * split; [|now apply sorted_N_of_nat, sorted_removelast]. intros E0. apply map_eq_nil in E0. rewrite E0 in Hl. destruct xs; [congruence|discriminate].
        * rewrite Forall_forall in R5. specialize (R5 p (in_removelast _ _ Hp)). unfold W64. lia.
      + eapply bvb_fit; [exact R1|]. lia.
  Qed.
End RecordsFit.

Definition ok_list (u : nat) (l : list nat) : Prop := l <> [] /\ increasing l /\ Forall (fun x => x < u) l.
Lemma inv_fit u ls d : (N.of_nat u < 4294967296)%N -> ls <> [] -> few (length ls) -> Forall (ok_list u) ls -> (N.of_nat (length (concat ls)) < 1099511627776)%N -> inv_build_d u ls = Ok d -> fit_inv d.
Proof.
  intros Hu Hne Hf Hg Htot E. unfold inv_build_d in E. destruct (records_d _ _) as [[e v]| | |] eqn:Er; try discriminate E. cbn [bind] in E. injection E as <-.
  apply (records_fit (write_list (N.of_nat u)) (enc_list (N.of_nat u)) (fun l => 529 * length l) (good_list (N.of_nat u))) in Er as [A B].
  - constructor; cbn [vd_integers vd_docs vd_ptrs vd_data]; try assumption; unfold in64, W64; lia.
  - intros b L l Hb Hl. apply write_list_ok; auto. now apply small_u.
  - intros E. apply map_eq_nil in E. congruence.
  - now rewrite map_length.
  - now apply lists_good.
  - rewrite total_linear, length_concat_map. lia.
Qed.
Lemma fwd_fit n ls d : (1 <= N.of_nat n < 4294967296)%N -> (N.of_nat (length ls) < 4294967296)%N -> Forall (Forall (fun x => (x <= N.of_nat n)%N)) ls -> (N.of_nat (length (concat ls)) <= 1125899906842624)%N ->
  fwd_build_d n ls = Ok d -> fit_fwd d.
Proof.
  intros Hn Hls Hg Htot E. unfold fwd_build_d in E. destruct (cv_build_width _ _) as [v| | |] eqn:Ev; try discriminate E. cbn [bind] in E.
  destruct (ef_build _) as [e| | |] eqn:Ee; try discriminate E. cbn [bind] in E. injection E as <-. constructor; cbn [wd_integers wd_terms wd_ptrs wd_data].
  - unfold in64, W64. lia.
  - unfold in64, W64. lia.
  - destruct (fwd_pointers_sorted ls 0) as [S1 S2]. apply (ef_fit _ _) in Ee; [exact Ee|..].
    + split; [|now apply sorted_N_of_nat]. destruct ls; discriminate.
    + apply Forall_map. eapply Forall_impl; [|exact S2]. unfold W64. cbn. lia.
    + unfold few. rewrite map_length, fwd_pointers_length. lia.
  - destruct (width_ok (N.of_nat n) Hn) as [W _]. apply cvec_fit in Ev; [exact Ev|lia| |exact Htot].
    apply Forall_concat. eapply Forall_impl; [|exact Hg]. cbn. intros l Hl. eapply Forall_impl; [|exact Hl]. unfold W64. cbn. lia.
Qed.
