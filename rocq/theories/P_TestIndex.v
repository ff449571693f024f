(** Proofs about the tests of the inverted index and of the forward index. *)
From Coq Require Import Sorted.
From Verif Require Import Base S_Order S_Vocab S_Completions S_Text S_Trie S_Collection S_Files S_Containers S_Iter S_Intersect.
From Verif Require Import M_Heap S_Heap P_Heap M_Iter M_Intersect P_Intersect M_Containers M_Trie M_CompactEf M_InvIndex M_EfSeq M_Real M_Input M_Save M_Stored M_Tests M_TestIndex.
From Verif Require Import M_Word M_Cvec P_EfSeq P_Query P_Auto4 S_Bits P_Bits P_CompactEf P_CompactIt P_InvIndex P_Containers P_Real P_Collection P_Input P_Files P_Save P_Stored P_Fit P_Fit2 P_Fit3 P_BenchDict P_Tests.
Local Open Scope nat_scope.

Lemma read_lists_some ls : forall ws st rest junk, Forall (fun l => small32 (N.of_nat (length l)) /\ Forall small32 l) ls -> Forall2 numeral ws (concat (map list_numbers ls)) -> before st (ws ++ rest) ->
  exists st', read_lists (length ls) st junk = (st', ls) /\ before st' rest.
Proof.
  induction ls as [|l ls IH]; intros ws st rest junk Hl Hw Hb; cbn [map concat length read_lists] in *.
  - inversion Hw; subst. eauto.
  - inversion Hl as [|? ? (H1 & H2) H3]; subst. cbn [list_numbers app] in Hw. inversion Hw as [|w ? ws' ? Hn Hws]; subst.
    destruct (forall2_app_inv_r _ _ _ _ Hws) as (w1 & w2 & -> & A1 & A2). cbn [app] in Hb. rewrite <- app_assoc in Hb.
    destruct (in_u32_word st w (w1 ++ w2 ++ rest) _ 0%N Hb Hn H1) as (st1 & -> & Hb1). rewrite Nat2N.id.
    destruct (read_values_ok l w1 st1 (w2 ++ rest) junk H2 A1 Hb1) as (st2 & -> & Hb2).
    destruct (IH w2 st2 rest junk H3 A2 Hb2) as (st3 & -> & Hb3). eauto.
Qed.

(** The checks of all elements pass. *)
Lemma all_pass_true {A St} (f : A -> St -> res (bool * St)) l s : (forall x, In x l -> f x s = Ok (true, s)) -> all_pass f l s = Ok (true, s).
Proof. induction l as [|x l IH]; intros H; cbn [all_pass]; [reflexivity|]. rewrite H by now left. cbn [bind]. apply IH. intros y Hy. apply H. now right. Qed.
Lemma in_combine_nth {A} (l : list A) : forall a n i x, In (i, x) (combine (seq a n) l) -> a <= i /\ nth_error l (i - a) = Some x.
Proof.
  induction l as [|y l IH]; intros a n i x H; destruct n as [|n]; cbn [seq combine] in H; try (destruct H; fail).
  destruct H as [E|H]; [injection E as <- <-; split; [lia|]; now rewrite Nat.sub_diag|].
  destruct (IH (S a) n i x H) as [H1 H2]. split; [lia|]. replace (i - a) with (S (i - S a)) by lia. exact H2.
Qed.

(** ** set_intersection *)
Lemma set_intersection_ok a : forall b, StronglySorted N.lt a -> StronglySorted N.lt b ->
  StronglySorted N.lt (set_intersection a b) /\ forall x, In x (set_intersection a b) <-> In x a /\ In x b.
Proof.
  induction a as [|x a IHa]; intros b Ha; [intros _; cbn; split; [constructor|tauto]|].
  inversion Ha as [|? ? Ha' Hxa]; subst. rewrite Forall_forall in Hxa.
  induction b as [|y b IHb]; intros Hb; [cbn; split; [constructor|tauto]|]. inversion Hb as [|? ? Hb' Hyb]; subst. rewrite Forall_forall in Hyb. cbn [set_intersection].
  destruct (N.ltb_spec x y) as [L|L].
  - destruct (IHa (y :: b) Ha' Hb) as [S1 S2]. split; [exact S1|]. intros z. rewrite S2. split; [intros [H1 H2]; split; [now right|exact H2]|].
    intros [[<-|H1] H2]; [|auto]. exfalso. destruct H2 as [<-|H2]; [lia|]. specialize (Hyb _ H2). lia.
  - destruct (N.ltb_spec y x) as [G|G].
    + destruct (IHb Hb') as [S1 S2]. split; [exact S1|]. intros z. rewrite (S2 z). split; [intros [H1 H2]; split; [exact H1|now right]|].
      intros [H1 [<-|H2]]; [|auto]. exfalso. destruct H1 as [<-|H1]; [lia|]. specialize (Hxa _ H1). lia.
    + assert (x = y) by lia. subst y. destruct (IHa b Ha' Hb') as [S1 S2]. split.
      * constructor; [exact S1|]. apply Forall_forall. intros z Hz. apply Hxa. now apply S2.
      * intros z. split.
        -- intros [<-|H]; [split; now left|]. apply S2 in H. split; right; tauto.
        -- intros [[<-|H1] [E|H2]]; [now left|now left|subst; now left|]. right. apply S2. tauto.
Qed.

Lemma increasing_N l : increasing l -> StronglySorted N.lt (map N.of_nat l).
Proof. induction 1 as [|x l _ IH H]; cbn [map]; constructor; [exact IH|]. apply Forall_map. eapply Forall_impl; [|exact H]. cbn. lia. Qed.
Lemma sorted_N_eq a b : StronglySorted N.lt a -> StronglySorted N.lt b -> (forall x, In x a <-> In x b) -> a = b.
Proof.
  intros Ha. revert b. induction Ha as [|x a Ha IH Hx]; intros b Hb H.
  - destruct b as [|y b]; [reflexivity|]. destruct (proj2 (H y)). now left.
  - destruct Hb as [|y b Hb Hy]; [destruct (proj1 (H x)); now left|]. rewrite Forall_forall in Hx, Hy.
    assert (x = y) by (destruct (proj1 (H x)) as [E|E]; [now left|congruence|]; destruct (proj2 (H y)) as [E'|E']; [now left|congruence|]; specialize (Hx _ E'); specialize (Hy _ E); lia).
    subst y. f_equal. apply IH; [exact Hb|]. intros z. split; intros Hz.
    + destruct (proj1 (H z)) as [<-|E]; [now right| |exact E]. specialize (Hx _ Hz). lia.
    + destruct (proj2 (H z)) as [<-|E]; [now right| |exact E]. specialize (Hy _ Hz). lia.
Qed.

(** ** Iterators *)
Lemma same_list_ok tail u it l : forall p, list_at tail u it l p -> p <= length l -> same_list it (skipn p l) = Ok true.
Proof.
  intros p Hat Hp. remember (length l - p) as n eqn:En. revert it p Hat Hp En. induction n as [|n IH]; intros it p Hat Hp En.
  - rewrite skipn_all2 by lia. reflexivity.
  - destruct (nth_error l p) as [x|] eqn:Ex; [|apply nth_error_None in Ex; lia].
    assert (Es : skipn p l = x :: skipn (p + 1) l).
    { clear -Ex. revert p Ex. induction l as [|y l IH]; intros [|p] Ex; try discriminate; cbn [nth_error skipn Nat.add] in *; [congruence|auto]. }
    rewrite Es. cbn [same_list]. rewrite (la_val _ _ _ _ _ Hat). rewrite (nth_error_nth l p u Ex), N.eqb_refl.
    destruct (la_next _ _ _ it p Hat) as (it' & -> & Hat'); [lia|]. cbn [bind]. apply IH; [exact Hat'|lia|lia].
Qed.
Lemma access_all_ok tail u l : forall n it p i, list_at tail u it l p -> i + n = length l -> access_all it i n = Ok (skipn i l).
Proof.
  induction n as [|n IH]; intros it p i Hat Hi; cbn [access_all].
  - now rewrite skipn_all2 by lia.
  - destruct (la_access _ _ _ it p i Hat) as (it' & -> & Hat'); [lia|]. cbn [bind]. rewrite (IH it' i (i + 1) Hat') by lia. cbn [bind]. rewrite (la_val _ _ _ _ _ Hat').
    destruct (nth_error l i) as [x|] eqn:Ex; [|apply nth_error_None in Ex; lia]. rewrite (nth_error_nth l i u Ex). f_equal.
    clear -Ex. revert i Ex. induction l as [|y l IH]; intros [|i] Ex; try discriminate; cbn [nth_error skipn Nat.add] in *; [congruence|]. now apply IH.
Qed.
Lemma same_stream_ok {St} (ops : stream_ops St) r : forall x, yields ops x r -> same_stream ops x (map N.of_nat r) = Ok true.
Proof.
  induction r as [|d r IH]; intros x H; cbn [map same_stream yields] in *; [now rewrite H|]. destruct H as (-> & -> & x' & -> & H). rewrite N.eqb_refl. cbn [bind]. now apply IH.
Qed.

Section Whole.
  Context (c : collection) (Hwf : wf_collection c) (t : texts) (Ht : holds_collection c t) (tail : N) (Htail : (tail < 2 ^ 64)%N).
  Let T := length (terms c).

  Lemma read_inverted junk : snd (read_lists T (open_file (t_inverted t)) junk) = map (map N.of_nat) (postings c).
  Proof using Hwf Ht Htail.
    destruct (hc_inverted _ _ Ht) as (ws & Hw & Hl).
    destruct (read_lists_ok (map (fun x => map N.of_nat (posting_list c x)) (seq 1 (length (terms c)))) ws (open_file (t_inverted t)) junk) as (st & E & _).
    - apply Forall_forall. intros l Hl'. apply in_map_iff in Hl' as (x & <- & _). now apply posting_small.
    - rewrite map_map. exact Hw.
    - apply before_open. exact Hl.
    - rewrite map_length, seq_length in E. unfold T. rewrite E. cbn [snd]. unfold postings. now rewrite map_map.
  Qed.
  Lemma to_nat_lists (ls : list (list nat)) : map (map N.to_nat) (map (map N.of_nat) ls) = ls.
  Proof. rewrite map_map. rewrite <- (map_id ls) at 2. apply map_ext. intros l. rewrite map_map. rewrite <- (map_id l) at 2. apply map_ext. intros x. apply Nat2N.id. Qed.

  (** The index the tests get. *)
  Lemma inv_index_ok old junk p : pa_terms p = N.of_nat T -> pa_universe p = N.of_nat (universe c) ->
    exists d, test_inv_index old junk t p = Ok (Some d) /\ vd_docs d = universe c /\ ef_size (vd_ptrs d) = T /\
      forall i l, nth_error (postings c) i = Some l -> exists it, inv_of tail d i = Ok it /\ ce_cursor tail (universe c) it l 0.
  Proof using Hwf Ht Htail.
    intros Et Eu. unfold test_inv_index. rewrite Et, Eu, !Nat2N.id, read_inverted, to_nat_lists.
    pose proof (postings_ok c Hwf) as Hok. pose proof (wf_universe c Hwf) as HU. pose proof (postings_few c Hwf) as Hfew.
    destruct (inv_build_ok (N.of_nat (universe c)) (map (map N.of_nat) (postings c)) tail) as (ii & Eii & Hn & Hit).
    - apply small_u. lia.
    - exact Htail.
    - intros E. apply map_eq_nil in E. now apply (postings_ne c Hwf).
    - now apply lists_good.
    - rewrite length_concat_map. pose proof pow40. lia.
    - destruct (inv_build_d (universe c) (postings c)) as [d| | |] eqn:Ed.
      2-4: exfalso; unfold inv_build, inv_build_d in *; rewrite records_view in Eii; destruct (records_d _ _) as [[e v]| | |]; cbn [bind] in *; discriminate.
      pose proof (inv_d_docs _ _ _ Ed) as Ev. pose proof (inv_c c Hwf d Ed) as Hfit. cbn [bind].
      assert (Eq : ii = {| ii_docs := N.of_nat (vd_docs d); ii_lists := records_of (vd_ptrs d) (vd_data d) |}).
      { unfold inv_build, inv_build_d in *. rewrite records_view in Eii. destruct (records_d _ _) as [[e v]| | |]; cbn [bind] in *; try discriminate. injection Ed as <-. injection Eii as <-. reflexivity. }
      assert (Es : ef_size (vd_ptrs d) = T).
      { rewrite Eq in Hn. unfold inv_terms in Hn. cbn [ii_lists records_of r_ptrs seqc_of q_size] in Hn. rewrite Hn, map_length. now apply postings_length. }
      assert (Hs : inv_sizes d p = true) by (unfold inv_sizes; now rewrite Et, Eu, Ev, Es, !N.eqb_refl).
      rewrite Hs. pose proof (inv_good d Hfit old []) as Hg. rewrite app_nil_r in Hg. unfold load_file, save_file. rewrite Hg. cbn [bind]. rewrite Hs.
      exists d. split; [reflexivity|]. split; [exact Ev|]. split; [exact Es|]. intros i l Hl. destruct (Hit i _ (nth_error_lists _ _ _ Hl)) as (it & E & Hat). exists it.
      split; [unfold inv_of; now rewrite <- Eq|]. rewrite Forall_forall in Hok. destruct (Hok l (nth_error_In _ _ Hl)) as (H1 & H2 & H3). repeat (split; [assumption|]). assumption.
  Qed.

  Lemma test_inv_ok old junk : test_inv tail old junk t = Ok true.
  Proof using Hwf Ht Htail.
    unfold test_inv. destruct (load_full c Hwf t Ht) as (p & -> & Et & _ & Eu & _). cbn [bind].
    destruct (inv_index_ok old junk p Et Eu) as (d & -> & Ev & Es & Hit). cbn [bind]. rewrite Es, read_inverted. rewrite all_pass_true; [reflexivity|].
    intros [i l] Hin. destruct (in_combine_nth _ _ _ _ _ Hin) as [_ Hn]. rewrite Nat.sub_0_r, nth_error_map in Hn. destruct (nth_error (postings c) i) as [l0|] eqn:El; [|discriminate]. injection Hn as <-.
    unfold check_list. cbn [fst snd]. destruct (Hit i l0 El) as (it & -> & Hat & _). cbn [bind]. rewrite (la_size _ _ _ _ _ Hat), Nat.eqb_refl.
    pose proof (same_list_ok tail (N.of_nat (universe c)) it (map N.of_nat l0) 0 Hat (Nat.le_0_l _)) as E. cbn [skipn] in E. rewrite E. reflexivity.
  Qed.

  Definition query_ok (q : list nat) : Prop := 2 <= length q /\ Forall (fun x => 1 <= x <= T) q.
  Lemma list_of_ok d x : vd_docs d = universe c -> (forall i l, nth_error (postings c) i = Some l -> exists it, inv_of tail d i = Ok it /\ ce_cursor tail (universe c) it l 0) ->
    1 <= x <= T -> list_of tail d x = Ok (map N.of_nat (posting_list c x)).
  Proof using Hwf Ht Htail.
    intros Ev Hit Hx. unfold list_of. destruct x as [|i]; [lia|]. pose proof (postings_nth c (S i) Hx) as Hn. replace (S i - 1) with i in Hn by lia.
    destruct (Hit i _ Hn) as (it & -> & Hat & Hne & Hinc & Hlt). cbn [bind]. rewrite (la_size _ _ _ _ _ Hat), map_length, Ev.
    pose proof (increasing_length_lt _ (universe c) Hinc Hlt) as Hle. destruct (Nat.ltb_spec (universe c) (length (posting_list c (S i)))); [lia|].
    rewrite (access_all_ok tail (N.of_nat (universe c)) (map N.of_nat (posting_list c (S i))) _ it 0 0 Hat) by (rewrite map_length; lia). reflexivity.
  Qed.
  Lemma intersect_all_ok d : vd_docs d = universe c -> (forall i l, nth_error (postings c) i = Some l -> exists it, inv_of tail d i = Ok it /\ ce_cursor tail (universe c) it l 0) ->
    forall ids first, Forall (fun x => 1 <= x <= T) ids -> StronglySorted N.lt first ->
    exists r, intersect_all tail d first ids = Ok r /\ StronglySorted N.lt r /\ forall v, In v r <-> In v first /\ Forall (fun x => In v (map N.of_nat (posting_list c x))) ids.
  Proof using Hwf Ht Htail.
    intros Ev Hit. induction ids as [|x ids IH]; intros first Hids Hf; cbn [intersect_all].
    - exists first. split; [reflexivity|]. split; [exact Hf|]. intros v. split; [intros H; split; [exact H|constructor]|tauto].
    - inversion Hids as [|? ? Hx Hids']; subst. rewrite (list_of_ok d x Ev Hit Hx). cbn [bind].
      destruct (set_intersection_ok first (map N.of_nat (posting_list c x)) Hf) as [S1 S2]; [apply increasing_N, posting_increasing|].
      destruct (IH _ Hids' S1) as (r & -> & Hr & Hin). exists r. split; [reflexivity|]. split; [exact Hr|]. intros v. rewrite Hin, S2. split.
      + intros [[A B] C]. split; [exact A|]. constructor; assumption.
      + intros [A C]. inversion C; subst. auto.
  Qed.
  Lemma reference_ok d q : vd_docs d = universe c -> (forall i l, nth_error (postings c) i = Some l -> exists it, inv_of tail d i = Ok it /\ ce_cursor tail (universe c) it l 0) ->
    query_ok q -> exists r, reference tail d q = Ok r /\ StronglySorted N.lt r /\ forall v, In v r <-> Forall (fun x => In v (map N.of_nat (posting_list c x))) q.
  Proof using Hwf Ht Htail.
    intros Ev Hit [Hlen Hq]. destruct q as [|x [|y ids]]; [cbn in Hlen; lia..|]. inversion Hq as [|? ? Hx Hq1]; subst. inversion Hq1 as [|? ? Hy Hids]; subst. cbn [reference].
    rewrite (list_of_ok d x Ev Hit Hx), (list_of_ok d y Ev Hit Hy). cbn [bind].
    destruct (set_intersection_ok (map N.of_nat (posting_list c x)) (map N.of_nat (posting_list c y))) as [S1 S2]; [apply increasing_N, posting_increasing..|].
    destruct (intersect_all_ok d Ev Hit ids _ Hids S1) as (r & -> & Hr & Hin). exists r. split; [reflexivity|]. split; [exact Hr|]. intros v. rewrite Hin, S2. split.
    - intros [[A B] C]. repeat constructor; assumption.
    - intros A. inversion A as [|? ? A1 A2]; subst. inversion A2; subst. auto.
  Qed.

  Lemma test_inter_ok sort fuel queries old junk : sorts_by_size ce_ops sort -> (forall q, In q (queries T) -> query_ok q /\ (universe c + 1) * (length q + 1) < fuel) ->
    test_inter tail sort fuel queries old junk t = Ok true.
  Proof using Hwf Ht Htail.
    intros Hsort Hqs. unfold test_inter. destruct (load_full c Hwf t Ht) as (p & -> & Et & _ & Eu & _). cbn [bind].
    destruct (inv_index_ok old junk p Et Eu) as (d & -> & Ev & Es & Hit). cbn [bind]. rewrite Es. rewrite all_pass_true; [reflexivity|].
    intros q Hq. destruct (Hqs q Hq) as [Hok Hfuel]. unfold check_query. destruct (reference_ok d q Ev Hit Hok) as (r & -> & Hr & Hin). cbn [bind].
    set (r0 := map N.to_nat r).
    assert (Er : r = map N.of_nat r0) by (unfold r0; rewrite map_map; rewrite <- (map_id r) at 1; apply map_ext; intros x; symmetry; apply N2Nat.id).
    assert (Hcom : common (map (posting_list c) q) r0).
    { split.
      - unfold r0. clear -Hr. induction Hr as [|x r Hr IH Hx]; cbn [map]; constructor; [exact IH|]. apply Forall_map. eapply Forall_impl; [|exact Hx]. cbn. lia.
      - intros x. assert (E : In x r0 <-> In (N.of_nat x) r).
        { unfold r0. rewrite in_map_iff. split; [intros (y & <- & Hy); now rewrite N2Nat.id|]. intros Hx. exists (N.of_nat x). split; [apply Nat2N.id|exact Hx]. }
        rewrite E, Hin. rewrite Forall_map. split; intros H; (eapply Forall_impl; [|exact H]); cbn; intros a Ha.
        + apply in_map_iff in Ha as (y & Ey & Hy). assert (y = x) by lia. subst y. exact Hy.
        + now apply in_map. }
    destruct (intersection_forward ce_ops (universe c) (ce_cursor tail (universe c)) (inv_of tail d) (postings c) sort q (map (posting_list c) q) fuel r0) as (x & Ex & Hy).
    - intros it l p0 Hc. destruct (ce_is_cursor tail (universe c) it l p0 Hc) as (A1 & A2 & A3 & A4 & A5 & A6 & A7 & A8 & A9 & A10). repeat (split; [assumption|]). split; [intros lb Hlb _; now apply A9|exact A10].
    - exact Hit.
    - exact Hsort.
    - destruct Hok as [H _]. intros ->. cbn in H. lia.
    - destruct Hok as [_ H]. clear -H. induction H as [|y q Hy _ IH]; cbn [map]; constructor; [|exact IH].
      split; [lia|]. now apply (postings_nth c).
    - exact Hfuel.
    - exact Hcom.
    - rewrite Ev, Ex. cbn [bind]. rewrite Er, (same_stream_ok _ r0 x Hy). reflexivity.
  Qed.

  (** The forward index. *)
  Lemma read_forward n junk : n <= universe c -> snd (read_lists n (open_file (t_forward t)) junk) = map (forward_list c) (seq 0 n).
  Proof using Hwf Ht Htail.
    intros Hn. destruct (hc_forward _ _ Ht) as (ws & Hw & Hl). replace (universe c) with (n + (universe c - n)) in Hw by lia.
    rewrite seq_app, map_app, concat_app in Hw. destruct (forall2_app_inv_r _ _ _ _ Hw) as (w1 & w2 & -> & A1 & A2).
    destruct (read_lists_some (map (forward_list c) (seq 0 n)) w1 (open_file (t_forward t)) w2 junk) as (st & E & _).
    - apply Forall_forall. intros l Hl'. apply in_map_iff in Hl' as (x & <- & _). now apply forward_small.
    - rewrite map_map. exact A1.
    - apply before_open. exact Hl.
    - rewrite map_length, seq_length in E. now rewrite E.
  Qed.
  Lemma same_tokens_ok f base l : (forall j, j < length l -> fw_data f (base + j) = Ok (nth j l 0%N)) -> same_tokens f base 0 l = Ok true.
  Proof.
    intros H. assert (G : forall l2 l1, l = l1 ++ l2 -> same_tokens f base (length l1) l2 = Ok true); [|now apply (G l [])].
    induction l2 as [|x l2 IH]; intros l1 E; cbn [same_tokens]; [reflexivity|]. rewrite H by (rewrite E, app_length; cbn; lia). cbn [bind].
    rewrite E, nth_middle, N.eqb_refl. replace (length l1 + 1) with (length (l1 ++ [x])) by now rewrite app_length. apply IH. now rewrite <- app_assoc.
  Qed.
  Lemma fwd_ptrs_size n ls d : (N.of_nat (length (concat ls)) < 18446744073709551616)%N -> fwd_build_d n ls = Ok d -> ef_size (wd_ptrs d) = length ls + 1 /\ wd_terms d = n.
  Proof.
    intros Hs. unfold fwd_build_d. destruct (cv_build_width _ _); try discriminate. cbn [bind]. destruct (fwd_pointers_sorted ls 0) as [S1 S2].
    destruct (ef_build_ok (map N.of_nat (fwd_pointers 0 ls))) as (e & -> & He).
    - split; [destruct ls; discriminate|]. now apply sorted_N_of_nat.
    - apply Forall_map. eapply Forall_impl; [|exact S2]. unfold W64. cbn. lia.
    - cbn [bind]. intros E. injection E as <-. cbn [wd_ptrs wd_terms]. split; [|reflexivity]. rewrite (eo_size _ _ He), map_length. apply fwd_pointers_length.
  Qed.
  Lemma test_fwd_ok (heap : forall A, heap_ops A) sort old junk : (forall A, std_heap (heap A)) -> sorts_by_size ce_ops sort -> T <= universe c -> test_fwd tail old junk t = Ok true.
  Proof using Hwf Ht Htail.
    intros Hheap Hsort HT. unfold test_fwd. destruct (load_full c Hwf t Ht) as (p & -> & Et & _ & Eu & _). cbn [bind]. rewrite Et, Eu, !Nat2N.id, read_forward by lia. fold (forwards c).
    set (K := real_containers tail heap sort). assert (HK : containers_ok K) by exact (real_containers_ok tail heap sort Htail Hheap Hsort).
    destruct (fwd_build_ok K HK (length (terms c)) (forwards c)) as (fw & Ef & Hf).
    { apply T_bound; assumption. } { apply forwards_le; assumption. } { apply forwards_total; assumption. }
    unfold K in Ef. rewrite fwd_view in Ef. fold T in Ef. destruct (fwd_build_d T (forwards c)) as [d| | |] eqn:Ed; try discriminate. cbn [bind] in *. injection Ef as <-.
    destruct (fwd_ptrs_size T (forwards c) d) as [Ep En]; [now apply forwards_total|exact Ed|]. unfold forwards in Ep. rewrite map_length, seq_length in Ep.
    assert (Hs : fwd_sizes d p = true). { unfold fwd_sizes. rewrite Et, Eu, Ep, En, N.eqb_refl. replace (N.of_nat (universe c + 1) - 1)%N with (N.of_nat (universe c)) by lia. now rewrite N.eqb_refl. }
    fold T. rewrite Ed. cbn [bind]. rewrite Hs. pose proof (fwd_good d (fwd_c c Hwf d Ed) old []) as Hg. rewrite app_nil_r in Hg. unfold load_file, save_file. rewrite Hg. cbn [bind]. rewrite Hs, En, read_forward by exact HT.
    rewrite all_pass_true; [reflexivity|]. intros [i l] Hin. destruct (in_combine_nth _ _ _ _ _ Hin) as [_ Hn]. rewrite Nat.sub_0_r in Hn.
    assert (Hi : i < T) by (rewrite <- (seq_length T 0), <- (map_length (forward_list c)); apply nth_error_Some; congruence).
    assert (El : nth_error (forwards c) i = Some l).
    { rewrite nth_error_map in Hn. rewrite forwards_nth by lia. rewrite <- Hn. rewrite (nth_error_nth' (seq 0 T) 0) by now rewrite seq_length. cbn [option_map]. now rewrite seq_nth. }
    unfold check_tokens. cbn [fst snd]. destruct (Hf i l El) as (pos & -> & Hd). cbn [bind]. rewrite Nat.eqb_refl, same_tokens_ok by exact Hd. reflexivity.
  Qed.
End Whole.
