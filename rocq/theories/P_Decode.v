(** Which lookups decode a bucket, and what they touch. *)
From Verif Require Import Base S_Order S_Vocab S_Completions M_Compare M_Fc M_IntFc M_Conc S_Conc P_Order P_Compare P_FcGen P_Fc P_IntFc P_Conc P_Threads.
Local Open Scope nat_scope.

Definition static_of (l : lookup) (b : nat) : Prop :=
  match l with
  | Locate _ => b = B_locate
  | LocatePrefix _ => b = B_left \/ b = B_right
  | CLocate _ => b = B_ilocate
  | CLocatePrefix _ _ _ => b = B_ileft \/ b = B_iright
  | Extract _ | CExtract _ => False
  end.
(** The array the last scan of a lookup is in. *)
Definition scanned (l : lookup) : nat :=
  match l with Locate _ => B_locate | LocatePrefix _ => B_right | CLocate _ => B_ilocate | CLocatePrefix _ _ _ => B_iright | Extract _ | CExtract _ => 0 end.
Lemma same_scanned l1 l2 : same_function l1 l2 -> scanned l1 = scanned l2.
Proof. destruct l1, l2; cbn; intros H; try contradiction; reflexivity. Qed.
Lemma same_static l1 l2 b : static_of l1 b -> static_of l2 b -> same_function l1 l2.
Proof. destruct l1, l2; cbn [static_of same_function]; unfold B_locate, B_left, B_right, B_ilocate, B_ileft, B_iright; intros; exact I || lia. Qed.

Section Decode.
  Context (terms cs : list (list N)) (d dc : fcd).
  Hypothesis L : fc_layout d terms.
  Hypothesis Lc : ifc_layout dc cs.
  Hypothesis W : wf_vocab terms.
  Hypothesis Wc : wf_completions cs.
  Hypothesis H17 : not_multiple_of_17 (length terms).
  Hypothesis H17c : not_multiple_of_17 (length cs).

  Lemma n_pos (l : list (list N)) : l <> [] -> 0 < length l.
  Proof. destruct l; [congruence|cbn; lia]. Qed.
  Lemma bucket_in (l : list (list N)) b : l <> [] -> b < fc_num_buckets (length l) -> b * 17 < length l.
  Proof. intros Hl Hb. pose proof (nb_bound (length l) b (n_pos l Hl) Hb) as H. cbn [BUCKET default_bucket Nat.add] in H. lia. Qed.
  Lemma bucket_of (l : list (list N)) i : l <> [] -> not_multiple_of_17 (length l) -> 17 * i < length l -> i < fc_num_buckets (length l).
  Proof.
    intros Hl H Hi. pose proof (num_buckets_total (length l) H) as E. pose proof (n_pos l Hl). unfold fc_num_buckets in *. cbn [BUCKET default_bucket Nat.add] in *.
    pose proof (Nat.div_mod (length l) 17 ltac:(lia)). pose proof (Nat.mod_upper_bound (length l) 17 ltac:(lia)). revert E Hi. generalize (Nat.mod_upper_bound (length l) 17). intros. lia.
  Qed.

  Lemma fc_bucket_found t : exists ish b, locate_bucket byte_range_compare (fc_header d) (fc_buckets d) 0 t = Ok (ish, nth (b * 17) terms [], b) /\ b * 17 < length terms /\
    (ish = true <-> exists i, nth_error terms (17 * i) = Some t) /\ nth (b * 17) terms [] <> [].
  Proof.
    pose proof W as (Hs & Hne & Hw).
    destruct (locate_bucket_ok (fc_header d) (fun b => nth (b * 17) terms []) (fc_num_buckets (length terms)) (lay_header _ _ _ _ L) byte_range_compare t)
      as (ish & h & b & E & Hb & -> & H1 & H2).
    - apply num_buckets_pos. now apply n_pos.
    - intros b Hb. apply brc_sgn, nul_free_not_same_l. apply (wf_nth terms (b * 17) Hw). now apply bucket_in.
    - intros i j Hij. apply lex_sorted_nth; [exact Hs|]. pose proof (bucket_in terms j Hne ltac:(lia)). lia.
    - exists ish, b. pose proof (bucket_in terms b Hne Hb) as Hbi. rewrite (lay_buckets _ _ _ _ L). split; [exact E|]. split; [exact Hbi|]. split.
      + split.
        * intros Hi. exists b. rewrite Nat.mul_comm. apply (nth_error_nth_iff terms (b * 17) []). split; [exact Hbi|exact (H1 Hi)].
        * intros (i & Hi). apply (nth_error_nth_iff terms (17 * i) []) in Hi as (Hi & Ei). destruct ish; [reflexivity|]. exfalso.
          pose proof (bucket_of terms i Hne H17 Hi) as Hib. destruct (H2 eq_refl) as [[[-> Hlt]|Hlt] Hgt]; cbv beta in *; rewrite Nat.mul_comm in Ei.
          -- destruct i as [|i]; [rewrite Ei in Hlt; exact (lex_irrefl _ Hlt)|].
             pose proof (lex_sorted_nth terms 0 (S i * 17) [] Hs ltac:(lia)) as Hc. rewrite Ei in Hc. exact (lex_asym _ _ Hc Hlt).
          -- destruct (Nat.lt_trichotomy b i) as [Hbi'|[<-|Hbi']].
             ++ specialize (Hgt i ltac:(lia)). rewrite Ei in Hgt. exact (lex_irrefl _ Hgt).
             ++ rewrite Ei in Hlt. exact (lex_irrefl _ Hlt).
             ++ pose proof (lex_sorted_nth terms (i * 17) (b * 17) [] Hs ltac:(lia)) as Hc. rewrite Ei in Hc. exact (lex_asym _ _ Hc Hlt).
      + intros E0. rewrite Forall_forall in Hw. specialize (Hw _ (nth_In terms [] Hbi)). rewrite E0 in Hw. destruct Hw as (_ & Hw). cbn in Hw. lia.
  Qed.
  Lemma ifc_bucket_found t : exists ish b, locate_bucket uint32_range_compare (fc_header dc) (fc_buckets dc) 0 t = Ok (ish, nth (b * 17) cs [], b) /\ b * 17 < length cs /\
    (ish = true <-> exists i, nth_error cs (17 * i) = Some t) /\ nth (b * 17) cs [] <> [].
  Proof.
    pose proof Wc as (Hs & Hne & Hw).
    destruct (locate_bucket_ok (fc_header dc) (fun b => nth (b * 17) cs []) (fc_num_buckets (length cs)) (lay_header _ _ _ _ Lc) uint32_range_compare t)
      as (ish & h & b & E & Hb & -> & H1 & H2).
    - apply num_buckets_pos. now apply n_pos.
    - intros b Hb. apply urc_sgn.
    - intros i j Hij. apply lex_sorted_nth; [exact Hs|]. pose proof (bucket_in cs j Hne ltac:(lia)). lia.
    - exists ish, b. pose proof (bucket_in cs b Hne Hb) as Hbi. rewrite (lay_buckets _ _ _ _ Lc). split; [exact E|]. split; [exact Hbi|]. split.
      + split.
        * intros Hi. exists b. rewrite Nat.mul_comm. apply (nth_error_nth_iff cs (b * 17) []). split; [exact Hbi|exact (H1 Hi)].
        * intros (i & Hi). apply (nth_error_nth_iff cs (17 * i) []) in Hi as (Hi & Ei). destruct ish; [reflexivity|]. exfalso.
          pose proof (bucket_of cs i Hne H17c Hi) as Hib. destruct (H2 eq_refl) as [[[-> Hlt]|Hlt] Hgt]; cbv beta in *; rewrite Nat.mul_comm in Ei.
          -- destruct i as [|i]; [rewrite Ei in Hlt; exact (lex_irrefl _ Hlt)|].
             pose proof (lex_sorted_nth cs 0 (S i * 17) [] Hs ltac:(lia)) as Hc. rewrite Ei in Hc. exact (lex_asym _ _ Hc Hlt).
          -- destruct (Nat.lt_trichotomy b i) as [Hbi'|[<-|Hbi']].
             ++ specialize (Hgt i ltac:(lia)). rewrite Ei in Hgt. exact (lex_irrefl _ Hgt).
             ++ rewrite Ei in Hlt. exact (lex_irrefl _ Hlt).
             ++ pose proof (lex_sorted_nth cs (i * 17) (b * 17) [] Hs ltac:(lia)) as Hc. rewrite Ei in Hc. exact (lex_asym _ _ Hc Hlt).
      + intros E0. rewrite Forall_forall in Hw. specialize (Hw _ (nth_In cs [] Hbi)). rewrite E0 in Hw. destruct Hw as (_ & Hw). cbn in Hw. lia.
  Qed.

  (** A lookup touches its static array only if it decodes. *)
  Lemma run_touches_decoding out l : touches (fun b => b = out \/ static_of l b /\ decodes terms cs l) (run d dc out l).
  Proof.
    destruct l as [t|p|id|c|prefix x y|id]; cbn [run static_of decodes].
    - destruct (fc_bucket_found t) as (ish & b & E & Hb & Hi & Hn). unfold c_locate. rewrite E. cbn [pbind]. destruct ish; [constructor|].
      assert (Hdec : forall i, nth_error terms (17 * i) <> Some t). { intros i Ei. assert (X : false = true) by (apply Hi; now exists i). discriminate X. }
      do 2 (apply touches_pbind; [|intros; constructor]). apply touches_scan_bucket. auto.
    - destruct p as [|x p]; [constructor|]. apply touches_pbind; [|intros; constructor].
      eapply touches_weaken; [|apply touches_locate_prefix]. intros b Hb. right. split; [exact Hb|discriminate].
    - apply touches_pbind; [eapply touches_weaken; [|apply touches_extract]; auto|]. intros n. apply touches_rd; [auto|constructor].
    - destruct (ifc_bucket_found c) as (ish & b & E & Hb & Hi & Hn). unfold c_ilocate. rewrite E. cbn [pbind]. destruct ish; [constructor|].
      assert (Hdec : forall i, nth_error cs (17 * i) <> Some c). { intros i Ei. assert (X : false = true) by (apply Hi; now exists i). discriminate X. }
      do 2 (apply touches_pbind; [|intros; constructor]). apply touches_scan_bucket. auto.
    - apply touches_pbind; [|intros; constructor]. eapply touches_weaken; [|apply touches_ilocate_prefix]. intros b Hb. auto.
    - apply touches_pbind; [eapply touches_weaken; [|apply touches_iextract]; auto|]. intros n. apply touches_rd; [auto|constructor].
  Qed.

  (** A lookup that decodes gets to a write of the first element of the array of its last scan. *)
  Lemma scan_writes {R} entry w b d0 h bu (test : nat -> list N -> option R) stop : h <> [] -> writes_first b (c_scan_bucket entry w b d0 h bu test stop).
  Proof. apply writes_wr. Qed.
  Lemma decoding_front out l m r : covered terms cs l -> decodes terms cs l -> answer (alone m (run d dc out l)) = Ok r ->
    exists m' p', solo m (run d dc out l) m' p' /\ writes_first (scanned l) p'.
  Proof.
    intros Hcov Hdec Hr. destruct l as [t|p|id|c|prefix x y|id]; cbn [run covered decodes scanned] in *; try contradiction.
    - destruct (fc_bucket_found t) as (ish & b & E & Hb & Hi & Hn). exists m. eexists. split; [constructor|].
      unfold c_locate. rewrite E. cbn [pbind]. destruct ish; [destruct (proj1 Hi eq_refl) as (i & Ei); now apply Hdec in Ei|].
      do 2 apply writes_pbind. now apply scan_writes.
    - apply alone_ok_pbind in Hr as (a & m1 & Ha & _). assert (Ha' : answer (alone m (c_locate_prefix d p)) = Ok a) by now rewrite Ha. clear Ha.
      unfold c_locate_prefix in *. destruct (Nat.eqb_spec (length p) 0) as [E0|E0]; [apply length_zero_iff_nil in E0; contradiction|].
      destruct (locate_buckets_ok d terms p L W H17) as (bb & be & E & Hbb & _). rewrite E in *. cbn [pbind] in *.
      rewrite (lay_header _ _ _ _ L bb) in * by lia. rewrite (lay_header _ _ _ _ L be) in * by lia. cbn [pbind] in *.
      apply alone_ok_pbind in Ha' as (a1 & m2 & E1 & E2). exists m2. eexists. split.
      + apply solo_pbind. eapply solo_trans; [apply solo_pbind; apply (solo_alone _ _ _ _ E1)|]. constructor.
      + cbn [pbind]. do 2 apply writes_pbind. apply scan_writes. pose proof W as (_ & Hne & Hw). pose proof (bucket_in terms be Hne ltac:(lia)) as Hbi.
        intros E0'. rewrite Forall_forall in Hw. specialize (Hw _ (nth_In terms [] Hbi)). cbn [BUCKET default_bucket Nat.add] in E0'. rewrite E0' in Hw. destruct Hw as (_ & Hw). cbn in Hw. lia.
    - destruct (ifc_bucket_found c) as (ish & b & E & Hb & Hi & Hn). exists m. eexists. split; [constructor|].
      unfold c_ilocate. rewrite E. cbn [pbind]. destruct ish; [destruct (proj1 Hi eq_refl) as (i & Ei); now apply Hdec in Ei|].
      do 2 apply writes_pbind. now apply scan_writes.
    - apply alone_ok_pbind in Hr as (a & m1 & Ha & _). assert (Ha' : answer (alone m (c_ilocate_prefix dc prefix x y)) = Ok a) by now rewrite Ha. clear Ha.
      unfold c_ilocate_prefix in *. rewrite !N.mod_small in * by lia.
      set (q1 := prefix ++ [x]) in *. set (q2 := if (x =? y)%N then (prefix ++ [y]) ++ [INVALID_TERM_ID] else prefix ++ [y]) in *.
      destruct (ifc_begin_ok dc cs Lc Wc H17c q1 (repeat 0%N (2 * MAX_TERMS)) (repeat_length _ _)) as (ish & bb & pb & dl' & E1 & Hbb & _ & _ & Hbb2 & _).
      destruct (ifc_end_ok dc cs Lc Wc H17c q2 bb (repeat 0%N (2 * MAX_TERMS)) (repeat_length _ _) Hbb) as (be & pe & o & dr' & E3 & _ & _ & Epe & Hpe & _).
      { assert (Hq12 : pcmp q1 q2 <> Gt).
        { subst q1 q2. destruct (N.eqb_spec x y) as [->|Hne].
          - rewrite <- app_assoc. rewrite pcmp_app. cbn. rewrite N.compare_refl. discriminate.
          - rewrite pcmp_app. cbn. destruct (N.compare_spec x y); try discriminate; lia. }
        destruct Hbb2 as [Hbb2|Hbb2]; [now left|right]. intros Hgt. apply Hbb2.
        destruct (lex_total (nth (bb * 17) cs []) q1) as [H|[H|H]]; auto; exfalso.
        - destruct (pcmp_mono _ _ q2 H) as [Hm _]. apply Hq12. auto.
        - cbn [BUCKET default_bucket Nat.add] in Hgt. rewrite H in Hgt. congruence. }
      rewrite E1 in *. cbn [pbind] in *. rewrite E3 in *. cbn [pbind] in *.
      apply alone_ok_pbind in Ha' as (a1 & m2 & E4 & E5). exists m2. eexists. split.
      + apply solo_pbind. eapply solo_trans; [apply solo_pbind; apply (solo_alone _ _ _ _ E4)|]. constructor.
      + cbn [pbind]. do 2 apply writes_pbind. apply scan_writes. pose proof Wc as (_ & Hne & Hw).
        assert (Hbi : be * 17 < length cs) by (cbn [BUCKET default_bucket] in *; lia).
        intros E0'. rewrite Forall_forall in Hw. specialize (Hw _ (nth_In cs [] Hbi)). cbn [BUCKET default_bucket Nat.add] in E0'. rewrite E0' in Hw. destruct Hw as (_ & Hw). cbn in Hw. lia.
  Qed.
End Decode.
