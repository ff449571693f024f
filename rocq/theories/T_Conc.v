(** C42: lookups running at the same time. *)
From Verif Require Import Base S_Order S_Vocab S_Completions M_Fc M_IntFc M_Conc S_Conc P_Fc P_IntFc P_Conc T_Fc T_IntFc.
Local Open Scope nat_scope.

Definition uses (l : lookup) (out b : nat) : Prop :=
  match l with
  | Locate _ => b = B_locate
  | LocatePrefix _ => b = B_left \/ b = B_right
  | CLocate _ => b = B_ilocate
  | CLocatePrefix _ _ _ => b = B_ileft \/ b = B_iright
  | Extract _ | CExtract _ => b = out
  end.
Lemma run_touches d dc out l : touches (uses l out) (run d dc out l).
Proof.
  destruct l; cbn [run uses].
  - apply touches_pbind; [apply touches_locate|constructor].
  - apply touches_pbind; [apply touches_locate_prefix|constructor].
  - apply touches_pbind; [apply touches_extract|]. intros n. apply touches_rd; [reflexivity|constructor].
  - apply touches_pbind; [apply touches_ilocate|constructor].
  - apply touches_pbind; [apply touches_ilocate_prefix|constructor].
  - apply touches_pbind; [apply touches_iextract|]. intros n. apply touches_rd; [reflexivity|constructor].
Qed.
Lemma uses_disjoint l1 l2 b : ~ same_function l1 l2 -> uses l1 OUT1 b -> uses l2 OUT2 b -> False.
Proof.
  unfold OUT1, OUT2. destruct l1, l2; cbn [same_function uses]; unfold B_locate, B_left, B_right, B_ilocate, B_ileft, B_iright; intros H H1 H2; lia || (apply H; exact I).
Qed.

(** Whatever the dictionaries are: in every interleaving each of two lookups gives the reply it gives alone, unless both are by the same function with a static
    array. *)
Theorem C42_same_replies_partial : forall d dc l1 l2 m a b, ~ same_function l1 l2 ->
  together m (run d dc OUT1 l1) (run d dc OUT2 l2) a b ->
  a = (do (r, _) <- alone m (run d dc OUT1 l1); Ok r) /\ b = (do (r, _) <- alone m (run d dc OUT2 l2); Ok r).
Proof.
  intros d dc l1 l2 m a b Hs H. exact (disjoint_together m _ _ a b H _ _ (run_touches d dc OUT1 l1) (run_touches d dc OUT2 l2) (fun x => uses_disjoint l1 l2 x Hs)).
Qed.
Print Assumptions C42_same_replies_partial.

Lemma memory_arr m i n : memory_ok m -> nth i [256; 256; 256; 128; 128; 128; 256; 256] 0 = n -> i < 8 -> length (arr m i) = n.
Proof. intros H <- Hi. rewrite <- H. unfold arr. change 0 with (length (@nil N)). rewrite map_nth. reflexivity. Qed.
(** The six static arrays are there. *)
Definition six_arrays (m : memory) : Prop := arrays m /\ forall i, i < 6 -> length (arr m i) = nth i [256; 256; 256; 128; 128; 128] 0.
Lemma memory_len m : memory_ok m -> length m = 8.
Proof. intros H. rewrite <- (map_length (@length N)), H. reflexivity. Qed.

Lemma answer_ret {A B} (p : prog A) (f : A -> B) m : answer (alone m (pbind p (fun a => Ret (Ok (f a))))) = (do a <- answer (alone m p); Ok (f a)).
Proof. rewrite alone_pbind. destruct (alone m p) as [[a m']| | |]; reflexivity. Qed.
Lemma answer_text (p : prog nat) out m n o : out < length m -> length o = length (arr m out) -> n <= length o -> alone m p = Ok (n, upd m out o) ->
  answer (alone m (pbind p (fun n => rd_list out 0 n (fun s => Ret (Ok (RText s)))))) = Ok (RText (firstn n o)).
Proof.
  intros Ho Hl Hn E. rewrite alone_pbind, E. cbn [bind]. rewrite alone_rd by lia. rewrite arr_upd by assumption. rewrite slice_ok by lia. reflexivity.
Qed.

(** In every interleaving the replies are correct. *)
Lemma alone_correct terms cs : wf_vocab terms -> not_multiple_of_17 (length terms) -> wf_completions cs -> not_multiple_of_17 (length cs) ->
  exists d dc, fc_build terms = Ok d /\ ifc_build (map terminated cs) = Ok dc /\
    forall l m out, six_arrays m -> out < length m -> length (arr m out) = 256 -> covered terms cs l -> exists r, answer (alone m (run d dc out l)) = Ok r /\ correct terms cs l r.
Proof.
  intros Ht Ht17 Hc Hc17.
  destruct (C09_extract_partial terms Ht Ht17) as (d & Ed & He). destruct (C10_locate_partial terms Ht Ht17) as (d1 & E1 & Hl). rewrite Ed in E1. injection E1 as <-.
  destruct (C11_locate_prefix_exact_partial terms Ht Ht17) as (d1 & E1 & Hp). rewrite Ed in E1. injection E1 as <-.
  destruct (C14_extract_partial cs Hc Hc17) as (dc & Edc & Hce). destruct (C15_locate_prefix_exact_partial cs Hc Hc17) as (d1 & E1 & Hcp). rewrite Edc in E1. injection E1 as <-.
  destruct (C16_locate_partial cs Hc Hc17) as (d1 & E1 & Hcl). rewrite Edc in E1. injection E1 as <-.
  exists d, dc. split; [exact Ed|]. split; [exact Edc|]. intros l m out (Harr & Hm) Ho1 Ho2 Hcov.
  destruct l as [t|p|id|c|prefix a b|id]; cbn [run covered correct] in *.
  - rewrite answer_ret, c_locate_alone by assumption. destruct (Hl t (arr m B_locate) (Hm 0 ltac:(lia))) as (r & dec' & E & _ & H).
    rewrite E. cbn [answer bind]. eauto.
  - rewrite answer_ret, c_locate_prefix_alone by assumption.
    destruct (Hp p (arr m B_left) (arr m B_right) (Hm 1 ltac:(lia)) (Hm 2 ltac:(lia))) as (r & dl & dr & E & _ & _ & H).
    rewrite E. cbn [bind]. eexists. split; [reflexivity|]. destruct r as [[a b]|]; exact H.
  - destruct (nth_error terms (id - 1)) as [t|] eqn:Et; [|apply nth_error_None in Et; lia].
    destruct (He (id - 1) t Et (arr m out) 0) as (o & E & Hlo & _ & Hf); [lia|]. replace (id - 1 + 1) with id in E by lia. cbn [skipn] in Hf.
    assert (Hw : length t <= 256) by (destruct Ht as (_ & _ & Hw); rewrite Forall_forall in Hw; specialize (Hw t (nth_error_In _ _ Et)); unfold wf_term in Hw; lia).
    rewrite (answer_text _ out m (length t) o Ho1 Hlo); [|lia|rewrite c_extract_alone by lia; rewrite E; reflexivity]. rewrite Hf. eexists. split; [reflexivity|reflexivity].
  - rewrite answer_ret, c_ilocate_alone by assumption. apply In_nth_error in Hcov as (i & Hi).
    destruct (Hcl c (arr m B_ilocate) (Hm 3 ltac:(lia))) as (H1 & H2). destruct (H1 i Hi) as (dec' & E & _). rewrite E. cbn [answer bind].
    eexists. split; [reflexivity|]. intros j. split; [intros Ej; injection Ej as <-; exact Hi|]. intros Hj. destruct (H1 j Hj) as (dec2 & E2 & _). congruence.
  - rewrite answer_ret, c_ilocate_prefix_alone by assumption.
    destruct (Hcp prefix a b (arr m B_ileft) (arr m B_iright) Hcov (Hm 4 ltac:(lia)) (Hm 5 ltac:(lia))) as (r & p' & dl & dr & E & _ & _ & _ & _ & H).
    rewrite E. cbn [bind]. eexists. split; [reflexivity|]. destruct r as [[i j]|]; exact H.
  - destruct (nth_error cs id) as [c|] eqn:Et; [|apply nth_error_None in Et; lia].
    destruct (Hce id c Et (arr m out)) as (o & E & Hlo & Hf); [lia|].
    assert (Hw : length c <= 63) by (destruct Hc as (_ & _ & Hw); rewrite Forall_forall in Hw; specialize (Hw c (nth_error_In _ _ Et)); unfold wf_completion in Hw; lia).
    rewrite (answer_text _ out m (length c) o Ho1 Hlo); [|lia|rewrite c_iextract_alone by lia; rewrite E; reflexivity]. rewrite Hf. eexists. split; [reflexivity|reflexivity].
Qed.
Theorem C42_correct_partial : forall terms cs, wf_vocab terms -> not_multiple_of_17 (length terms) -> wf_completions cs -> not_multiple_of_17 (length cs) ->
  exists d dc, fc_build terms = Ok d /\ ifc_build (map terminated cs) = Ok dc /\
    forall l1 l2 m, memory_ok m -> covered terms cs l1 -> covered terms cs l2 -> ~ same_function l1 l2 ->
    (exists a b, together m (run d dc OUT1 l1) (run d dc OUT2 l2) a b) /\
    forall a b, together m (run d dc OUT1 l1) (run d dc OUT2 l2) a b ->
      exists r1 r2, a = Ok r1 /\ correct terms cs l1 r1 /\ b = Ok r2 /\ correct terms cs l2 r2.
Proof.
  intros terms cs H1 H2 H3 H4. destruct (alone_correct terms cs H1 H2 H3 H4) as (d & dc & Ed & Edc & H). exists d, dc. split; [exact Ed|]. split; [exact Edc|].
  intros l1 l2 m Hm Hc1 Hc2 Hs. split; [apply together_exists|]. intros a b Ht. destruct (C42_same_replies_partial d dc l1 l2 m a b Hs Ht) as (-> & ->).
  pose proof (memory_len m Hm) as Hlen.
  assert (H6 : six_arrays m). { split; [unfold arrays; lia|]. intros i Hi. apply (memory_arr m i _ Hm); [|lia]. do 6 (destruct i as [|i]; [reflexivity|]). lia. }
  destruct (H l1 m OUT1 H6) as (r1 & E1 & R1); [unfold OUT1; lia|apply (memory_arr m 6 _ Hm eq_refl); lia|exact Hc1|].
  destruct (H l2 m OUT2 H6) as (r2 & E2 & R2); [unfold OUT2; lia|apply (memory_arr m 7 _ Hm eq_refl); lia|exact Hc2|].
  unfold answer in E1, E2. rewrite E1, E2. exists r1, r2. auto.
Qed.
Print Assumptions C42_correct_partial.

(** F21. Two lookups by the same function do interfere, in the terms a, b, c and the completions 1; 2; 3: b, which is a term, is not found, and c is reported to
    be the second term; both are right when run one after the other. *)
Definition mem_ex : memory := map (fun n => repeat 0%N n) [256; 256; 256; 128; 128; 128; 256; 256].
Definition abc : list (list N) := [[97]; [98]; [99]]%N.
Definition c123 : list (list N) := [[1]; [2]; [3]]%N.
Ltac interleaved s := apply (schedule_together s); eexists; vm_compute; reflexivity.
Theorem C42_locate_refuted : exists d dc, wf_vocab abc /\ wf_completions c123 /\ fc_build abc = Ok d /\ ifc_build (map terminated c123) = Ok dc /\
  together mem_ex (run d dc OUT1 (Locate [98%N])) (run d dc OUT2 (Locate [99%N])) (Ok (RId None)) (Ok (RId (Some 3))) /\
  together mem_ex (run d dc OUT1 (Locate [98%N])) (run d dc OUT2 (Locate [99%N])) (Ok (RId (Some 2))) (Ok (RId (Some 3))) /\
  together mem_ex (run d dc OUT1 (Locate [99%N])) (run d dc OUT2 (Locate [99%N])) (Ok (RId (Some 2))) (Ok (RId (Some 3))) /\
  together mem_ex (run d dc OUT1 (LocatePrefix [98%N])) (run d dc OUT2 (LocatePrefix [99%N])) (Ok (RRange None)) (Ok (RRange (Some (2, 2)))) /\
  together mem_ex (run d dc OUT1 (CLocate [3%N])) (run d dc OUT2 (CLocate [3%N])) (Ok (RId (Some 1))) (Ok (RId (Some 2))).
Proof.
  eexists. eexists. split; [apply wf_vocabb_wf; vm_compute; reflexivity|]. split; [apply wf_completionsb_wf; vm_compute; reflexivity|].
  split; [vm_compute; reflexivity|]. split; [vm_compute; reflexivity|].
  split; [interleaved [(true, 129); (false, 1000); (true, 1000)]|].
  split; [interleaved [(true, 1000); (false, 1000)]|].
  split; [interleaved [(true, 129); (false, 1000); (true, 1000)]|].
  split; [interleaved [(true, 129); (false, 1000); (true, 1000)]|].
  interleaved [(true, 65); (false, 1000); (true, 1000)].
Qed.
Print Assumptions C42_locate_refuted.

Example C42_nonvacuous :
  wf_vocab abc /\ not_multiple_of_17 (length abc) /\ wf_completions c123 /\ not_multiple_of_17 (length c123) /\ memory_ok mem_ex /\
  covered abc c123 (Locate [98%N]) /\ covered abc c123 (LocatePrefix [98%N]) /\ ~ same_function (Locate [98%N]) (LocatePrefix [98%N]) /\
  covered abc c123 (CLocate [3%N]) /\ covered abc c123 (CLocatePrefix [] 2 3) /\ covered abc c123 (Extract 3) /\ covered abc c123 (CExtract 2).
Proof.
  split; [apply wf_vocabb_wf; vm_compute; reflexivity|]. split; [vm_compute; discriminate|]. split; [apply wf_completionsb_wf; vm_compute; reflexivity|].
  split; [vm_compute; discriminate|]. split; [reflexivity|]. cbn [covered same_function].
  split; [exact I|]. split; [exact I|]. split; [tauto|]. split; [cbn; auto|]. split; [lia|]. cbn. lia.
Qed.
