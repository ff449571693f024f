(** The inverted index and the blocked index on bits: every stored list is found and can be read. *)
From Coq Require Import Sorted.
From Verif Require Import Base M_Trie S_Trie M_Word S_Bits P_Word M_Bits P_Bits P_BitsRead M_Codes S_Codes P_Codes P_EfSeq M_Iter S_Iter M_EfSeq M_CompactEf P_CompactEf P_CompactIt M_InvIndex P_Records P_Containers.
Local Open Scope nat_scope.

(** ** Iterators over stored lists *)
Definition list_at (tail u : N) (it : ceit) (l : list N) (p : nat) : Prop :=
  exists ws o base, ce_ctx ws tail o base u l /\ ce_at ws tail o u l it p.

Section At.
  Variables (tail u : N) (l : list N).
  Lemma la_le it p : list_at tail u it l p -> p <= length l.
  Proof. intros (ws & o & base & X & H). apply H. Qed.
  Lemma la_pos it p : list_at tail u it l p -> c_pos it = p.
  Proof. intros (ws & o & base & X & H). eapply at_pos; eassumption. Qed.
  Lemma la_size it p : list_at tail u it l p -> c_size it = length l.
  Proof. intros (ws & o & base & X & H). eapply c_size_ok; [exact X|apply H]. Qed.
  Lemma la_val it p : list_at tail u it l p -> c_val it = nth p l u.
  Proof.
    intros (ws & o & base & X & [Hh Hp Hin Hout]). destruct (Nat.eq_dec p (length l)) as [E|E].
    - rewrite nth_overflow by lia. now apply Hout.
    - destruct (Hin ltac:(lia)) as (_ & -> & _). apply nth_indep. lia.
  Qed.
  Lemma la_next it p : list_at tail u it l p -> p < length l -> exists it', c_next it = Ok it' /\ list_at tail u it' l (p + 1).
  Proof. intros (ws & o & base & X & H) Hp. destruct (next_ok _ _ _ _ _ _ X it p H Hp) as (it' & E & H'). exists it'. split; [assumption|]. now exists ws, o, base. Qed.
  Lemma la_access it p i : list_at tail u it l p -> i <= length l -> exists it', c_access it i = Ok it' /\ list_at tail u it' l i.
  Proof. intros (ws & o & base & X & H) Hp. destruct (access_ok _ _ _ _ _ _ X it p i H Hp) as (it' & E & H'). exists it'. split; [assumption|]. now exists ws, o, base. Qed.
  Lemma la_geq it p lb : list_at tail u it l p -> (lb <= u)%N \/ p < length l -> exists it', c_next_geq it lb = Ok it' /\ list_at tail u it' l (ngeq l lb).
  Proof. intros (ws & o & base & X & H) Hp. destruct (next_geq_ok _ _ _ _ _ _ X it p lb H Hp) as (it' & E & H'). exists it'. split; [assumption|]. now exists ws, o, base. Qed.
  Lemma la_prev it p : list_at tail u it l p -> c_prev_value it = Ok (if p =? 0 then 0%N else nth (p - 1) l 0%N).
  Proof. intros (ws & o & base & X & H). eapply prev_value_ok; eassumption. Qed.
End At.

(** ** A compact_ef list among other bits *)
Definition good_list (u : N) (l : list N) : Prop := l <> [] /\ nondec l /\ Forall (fun v => (v < u)%N) l /\ small (N.of_nat (length l)).
Definition ce_enc (u : N) (l : list N) (pre E : list bool) : Prop :=
  exists o, ofs_new (length pre) u (length l) = Ok o /\ ofs_ok o (length pre) u (length l) /\ length (pre ++ E) = o_end o /\
    laid (bt (pre ++ E)) o l (length l) (o_hlen o - length l).

Lemma ce_write b L u l : bvb_ok b L -> small u -> good_list u l ->
  exists b' E, ce_build b u l = Ok b' /\ bvb_ok b' (L ++ E) /\ ce_enc u l L E /\ length E <= 400 * length l.
Proof.
  intros Hb Hu (Hne & Hnd & Hlt & Hn). destruct (ce_build_ok b L u l Hb Hne Hnd Hlt Hu Hn) as (o & b' & E & E1 & E2 & E3 & E4 & E5 & E6).
  exists b', E. split; [assumption|]. split; [assumption|]. split; [now exists o|].
  pose proof (ofs_size _ _ _ _ Hu Hn ltac:(destruct l; [congruence|cbn; lia]) E1) as Hs. rewrite app_length in E5. lia.
Qed.
Lemma ce_open ws pre E post tail u l : repr ws (pre ++ E ++ post) -> (tail < W64)%N -> small u -> good_list u l -> ce_enc u l pre E ->
  exists it, ce_iterator ws tail (length pre) u (length l) = Ok it /\ list_at tail u it l 0.
Proof.
  intros Hr Ht Hu (Hne & Hnd & Hlt & Hn) (o & E1 & E2 & E3 & E4).
  assert (Hfit : o_end o <= 64 * length ws).
  { apply (repr_fit ws (pre ++ E ++ post)); [assumption|]. rewrite app_assoc, app_length, E3. lia. }
  assert (X : ce_ctx ws tail o (length pre) u l).
  { split; try assumption; [apply Hr|destruct l; [congruence|cbn; lia]|].
    eapply laid_ext; [exact E2|lia|lia|exact E4|]. intros j Hj. rewrite (repr_bits _ _ Hr). unfold bt. rewrite app_assoc, (app_nth1 (pre ++ E) post) by lia. reflexivity. }
  destruct (iterator_ok _ _ _ _ _ _ X E1) as (it & Ei & Hat). exists it. split; [assumption|]. now exists ws, o, (length pre).
Qed.

(** ** inverted_index *)
Definition enc_list (u : N) (l : list N) (pre M : list bool) : Prop :=
  good_list u l /\ exists E, M = int_code GammaNonzero (N.of_nat (length l)) ++ E /\ ce_enc u l (pre ++ int_code GammaNonzero (N.of_nat (length l))) E.
Lemma gamma_int_ok u l : good_list u l -> int_ok GammaNonzero (N.of_nat (length l)).
Proof. intros (Hne & _ & _ & Hn). unfold small in Hn. cbn [int_ok]. assert (2 ^ 55 < 2 ^ 64)%N by reflexivity. destruct l; [congruence|]. cbn [length] in *. lia. Qed.
Lemma gamma_cost n : int_ok GammaNonzero n -> length (int_code GammaNonzero n) <= 129.
Proof. cbn [int_ok int_code]. intros H. rewrite gamma_length. pose proof (glen_lt (n - 1)) as G. unfold codeable in G. rewrite W64_pow in G. specialize (G ltac:(lia)). lia. Qed.

Lemma write_list_ok u b L l : small u -> bvb_ok b L -> good_list u l ->
  exists b' M, write_list u b l = Ok b' /\ bvb_ok b' (L ++ M) /\ enc_list u l L M /\ length M <= 529 * length l.
Proof.
  intros Hu Hb Hg. pose proof (gamma_int_ok u l Hg) as Hi. unfold write_list.
  destruct (write_int_ok b L GammaNonzero (N.of_nat (length l)) Hb Hi) as (b1 & E1 & H1). cbn [write_int] in E1. rewrite E1. cbn [bind].
  destruct (ce_write b1 _ u l H1 Hu Hg) as (b2 & E & -> & H2 & H3 & H4). exists b2, (int_code GammaNonzero (N.of_nat (length l)) ++ E).
  split; [reflexivity|]. rewrite app_assoc. split; [assumption|]. split; [split; [assumption|now exists E]|]. rewrite app_length. pose proof (gamma_cost _ Hi).
  destruct Hg as (Hne & _). destruct l; [congruence|]. cbn [length] in *. lia.
Qed.

Lemma total_linear k (ls : list (list N)) : total (fun l => k * length l) ls = k * length (concat ls).
Proof. induction ls as [|l ls IH]; cbn [total concat]; [cbn [length]; lia|]. rewrite app_length, IH. lia. Qed.

Lemma inv_build_ok u lists tail : small u -> (tail < W64)%N -> lists <> [] -> Forall (good_list u) lists -> (N.of_nat (length (concat lists)) < 2 ^ 54)%N ->
  exists ii, inv_build u lists = Ok ii /\ inv_terms ii = length lists /\
    forall t l, nth_error lists t = Some l -> exists it, inv_iterator tail ii t = Ok it /\ list_at tail u it l 0.
Proof.
  intros Hu Ht Hne Hg Htot. unfold inv_build.
  destruct (build_records_ok (write_list u) (enc_list u) (fun l => 529 * length l) (good_list u)) with (xs := lists) as (r & B & E & Hr & Hq & Hget); try assumption.
  - intros b L l Hb Hl. now apply write_list_ok.
  - rewrite total_linear. unfold W64. assert (2 ^ 54 = 18014398509481984)%N by reflexivity. lia.
  - rewrite E. cbn [bind]. eexists. split; [reflexivity|]. split; [exact Hq|].
    intros t l Hl. destruct (Hget t l Hl) as (pre & M & post & EB & Ep & Hgl & E' & EM & Hce). unfold inv_iterator. cbn [ii_lists ii_docs]. rewrite Ep. cbn [bind].
    pose proof (gamma_int_ok u l Hgl) as Hi. set (G := int_code GammaNonzero (N.of_nat (length l))) in *.
    assert (Hr1 : repr (v_words (r_data r)) (pre ++ G ++ E' ++ post)) by (rewrite EB, EM, <- app_assoc in Hr; exact Hr).
    destruct (read_int_ok _ pre GammaNonzero (N.of_nat (length l)) (E' ++ post) (bi_new (length pre)) (66 + 64 * length (v_words (r_data r))) Hr1 (reads_new _ _) Hi ltac:(lia)) as (it1 & E1 & [_ _ H3]).
    cbn [read_int] in E1. rewrite E1. cbn [bind]. rewrite H3, Nat2N.id. fold G. rewrite <- app_length.
    eapply (ce_open _ (pre ++ G) E' post); eauto. rewrite <- app_assoc. exact Hr1.
Qed.

Lemma collect_ok tail u l fuel : forall it p, list_at tail u it l p -> length l - p < fuel -> c_collect fuel it = Ok (skipn p l).
Proof.
  induction fuel as [|fuel IH]; intros it p Hat Hf; [lia|]. cbn [c_collect]. rewrite (la_pos _ _ _ _ _ Hat), (la_size _ _ _ _ _ Hat), (la_val _ _ _ _ _ Hat).
  destruct (Nat.ltb_spec p (length l)) as [L|L].
  - destruct (la_next _ _ _ it p Hat L) as (it' & -> & Hat'). cbn [bind]. rewrite (IH it' (p + 1) Hat') by lia. cbn [bind]. f_equal.
    clear -L. revert p L. induction l as [|x l IH]; intros p L; cbn [length] in L; [lia|]. destruct p; [reflexivity|]. cbn [skipn nth Nat.add]. apply IH. lia.
  - f_equal. symmetry. apply skipn_all2. lia.
Qed.

(** ** blocked_inverted_index *)
Definition fits32 (l : list N) : Prop := (N.of_nat (length l) < 2 ^ 32)%N.
Definition enc_docs (u : N) (l : list N) (pre M : list bool) : Prop :=
  good_list u l /\ fits32 l /\ exists E, M = bits_of 32 (N.of_nat (length l)) ++ E /\ ce_enc u l (pre ++ bits_of 32 (N.of_nat (length l))) E.
Lemma write_docs_ok u b L l : small u -> bvb_ok b L -> good_list u l /\ fits32 l ->
  exists b' M, write_docs u b l = Ok b' /\ bvb_ok b' (L ++ M) /\ enc_docs u l L M /\ length M <= 432 * length l.
Proof.
  intros Hu Hb [Hg H32]. unfold write_docs.
  destruct (append_bits_ok b L (N.of_nat (length l)) 32 Hb ltac:(lia)) as (b1 & -> & H1); [exact H32|]. cbn [bind].
  destruct (ce_write b1 _ u l H1 Hu Hg) as (b2 & E & -> & H2 & H3 & H4). exists b2, (bits_of 32 (N.of_nat (length l)) ++ E).
  split; [reflexivity|]. rewrite app_assoc. split; [assumption|]. split; [split; [assumption|split; [assumption|now exists E]]|]. rewrite app_length, bits_of_length.
  destruct Hg as (Hne & _). destruct l; [congruence|]. cbn [length] in *. lia.
Qed.
Lemma read_bits_of v pre x w post : repr (v_words v) (pre ++ bits_of w x ++ post) -> w < 64 -> (x < 2 ^ N.of_nat w)%N -> bv_get_bits v (length pre) w = Ok x.
Proof.
  intros Hr Hw Hx. rewrite (get_bits_list v _ (length pre) w Hr Hw) by (rewrite !app_length, bits_of_length; lia). f_equal.
  rewrite skipn_app, skipn_all, Nat.sub_diag. cbn [skipn app]. rewrite firstn_app, bits_of_length, Nat.sub_diag. cbn [firstn]. rewrite app_nil_r, firstn_all2 by (rewrite bits_of_length; lia). now apply number_bits_of.
Qed.
Lemma docs_build_ok u lists tail : small u -> (tail < W64)%N -> lists <> [] -> Forall (fun l => good_list u l /\ fits32 l) lists -> (N.of_nat (length (concat lists)) < 2 ^ 54)%N ->
  exists r, build_records (write_docs u) lists = Ok r /\
    forall t l, nth_error lists t = Some l -> exists it, docs_iterator tail u r t = Ok it /\ list_at tail u it l 0.
Proof.
  intros Hu Ht Hne Hg Htot.
  destruct (build_records_ok (write_docs u) (enc_docs u) (fun l => 432 * length l) (fun l => good_list u l /\ fits32 l)) with (xs := lists) as (r & B & E & Hr & Hq & Hget); try assumption.
  - intros b L l Hb Hl. now apply write_docs_ok.
  - rewrite total_linear. unfold W64. assert (2 ^ 54 = 18014398509481984)%N by reflexivity. lia.
  - exists r. split; [assumption|].
    intros t l Hl. destruct (Hget t l Hl) as (pre & M & post & EB & Ep & Hgl & H32 & E' & EM & Hce). unfold docs_iterator. rewrite Ep. cbn [bind].
    set (G := bits_of 32 (N.of_nat (length l))) in *.
    assert (Hr1 : repr (v_words (r_data r)) (pre ++ G ++ E' ++ post)) by (rewrite EB, EM, <- app_assoc in Hr; exact Hr).
    rewrite (read_bits_of (r_data r) pre _ 32 (E' ++ post) Hr1 ltac:(lia) H32). cbn [bind]. rewrite Nat2N.id.
    replace (length pre + 32) with (length (pre ++ G)) by (unfold G; rewrite app_length, bits_of_length; reflexivity).
    eapply (ce_open _ (pre ++ G) E' post); eauto. rewrite <- app_assoc. exact Hr1.
Qed.

(** offsets *)
Definition off_u (l : list N) : N := (last l 0 + 1)%N.
Definition good_offsets (l : list N) : Prop := good_list (off_u l) l /\ fits32 l /\ (off_u l < 2 ^ 32)%N.
Definition off_head (l : list N) : list bool := bits_of 32 (N.of_nat (length l)) ++ bits_of 32 (off_u l).
Definition enc_offsets (l : list N) (pre M : list bool) : Prop :=
  good_offsets l /\ exists E, M = off_head l ++ E /\ ce_enc (off_u l) l (pre ++ off_head l) E.
Lemma small_32 x : (x < 2 ^ 32)%N -> small x.
Proof. unfold small. assert (2 ^ 32 < 2 ^ 55)%N by reflexivity. lia. Qed.
Lemma write_offsets_ok b L l : bvb_ok b L -> good_offsets l ->
  exists b' M, write_offsets b l = Ok b' /\ bvb_ok b' (L ++ M) /\ enc_offsets l L M /\ length M <= 464 * length l.
Proof.
  intros Hb Hgo. pose proof Hgo as (Hg & H32 & Hu). unfold write_offsets. replace (wadd (last l 0%N) 1) with (off_u l).
  2:{ unfold off_u, wadd in *. rewrite wrap_small; [reflexivity|]. unfold W64. assert (2 ^ 32 < 18446744073709551616)%N by reflexivity. lia. }
  assert (Hc : exists b' M, (do b <- bvb_append_bits b (N.of_nat (length l)) 32; do b <- bvb_append_bits b (off_u l) 32; ce_build b (off_u l) l) = Ok b' /\ bvb_ok b' (L ++ M) /\ enc_offsets l L M /\ length M <= 464 * length l).
  { destruct (append_bits_ok b L (N.of_nat (length l)) 32 Hb ltac:(lia)) as (b1 & -> & H1); [exact H32|]. cbn [bind].
    destruct (append_bits_ok b1 _ (off_u l) 32 H1 ltac:(lia)) as (b2 & -> & H2); [exact Hu|]. cbn [bind]. rewrite <- app_assoc in H2. fold (off_head l) in H2.
    destruct (ce_write b2 _ (off_u l) l H2 (small_32 _ Hu) Hg) as (b3 & E & -> & H3 & H4 & H5). exists b3, (off_head l ++ E).
    split; [reflexivity|]. rewrite app_assoc. split; [assumption|]. split; [split; [assumption|now exists E]|]. unfold off_head. rewrite !app_length, !bits_of_length.
    destruct Hg as (Hne & _). destruct l; [congruence|]. cbn [length] in *. lia. }
  destruct l; [destruct Hg as (Hne & _); congruence|]. exact Hc.
Qed.
Lemma offsets_build_ok lists tail : (tail < W64)%N -> lists <> [] -> Forall good_offsets lists -> (N.of_nat (length (concat lists)) < 2 ^ 54)%N ->
  exists r, build_records write_offsets lists = Ok r /\
    forall t l, nth_error lists t = Some l -> exists it, offsets_iterator tail r t = Ok it /\ list_at tail (off_u l) it l 0.
Proof.
  intros Ht Hne Hg Htot.
  destruct (build_records_ok write_offsets enc_offsets (fun l => 464 * length l) good_offsets) with (xs := lists) as (r & B & E & Hr & Hq & Hget); try assumption.
  - intros b L l Hb Hl. now apply write_offsets_ok.
  - rewrite total_linear. unfold W64. assert (2 ^ 54 = 18014398509481984)%N by reflexivity. lia.
  - exists r. split; [assumption|].
    intros t l Hl. destruct (Hget t l Hl) as (pre & M & post & EB & Ep & (Hgl & H32 & Hu) & E' & EM & Hce). unfold offsets_iterator. rewrite Ep. cbn [bind].
    assert (Hr1 : repr (v_words (r_data r)) (pre ++ off_head l ++ E' ++ post)) by (rewrite EB, EM, <- app_assoc in Hr; exact Hr).
    assert (Hr2 := Hr1). unfold off_head in Hr2. rewrite <- app_assoc in Hr2.
    rewrite (read_bits_of (r_data r) pre _ 32 _ Hr2 ltac:(lia) H32). cbn [bind]. rewrite app_assoc in Hr2.
    replace (length pre + 32) with (length (pre ++ bits_of 32 (N.of_nat (length l)))) by (rewrite app_length, bits_of_length; reflexivity).
    rewrite (read_bits_of (r_data r) _ _ 32 _ Hr2 ltac:(lia) Hu). cbn [bind]. rewrite Nat2N.id.
    replace (length pre + 64) with (length (pre ++ off_head l)) by (unfold off_head; rewrite !app_length, !bits_of_length; lia).
    eapply (ce_open _ (pre ++ off_head l) E' post); eauto using small_32. rewrite <- app_assoc. exact Hr1.
Qed.

(** terms *)
Definition good_terms (l : list N) : Prop := l <> [] /\ Forall (fun t => (t < 4294967295)%N) l.
Definition enc_terms (l : list N) (pre M : list bool) : Prop :=
  exists w, 1 <= w <= 32 /\ Forall (fun t => (t < 2 ^ N.of_nat w)%N) l /\ M = bits_of 6 (N.of_nat w) ++ flat_map (bits_of w) l.
Lemma append_all_ok w l : 1 <= w <= 32 -> Forall (fun t => (t < 2 ^ N.of_nat w)%N) l -> forall b L, bvb_ok b L ->
  exists b', append_all b l w = Ok b' /\ bvb_ok b' (L ++ flat_map (bits_of w) l).
Proof.
  intros Hw. induction 1 as [|t l Ht Hl IH]; intros b L Hb; cbn [append_all flat_map].
  - exists b. now rewrite app_nil_r.
  - destruct (append_bits_ok b L t w Hb ltac:(lia) Ht) as (b1 & -> & H1). cbn [bind]. destruct (IH b1 _ H1) as (b2 & -> & H2). exists b2. split; [reflexivity|]. now rewrite app_assoc.
Qed.
Lemma flat_bits_length w l : length (flat_map (bits_of w) l) = length l * w.
Proof. induction l as [|t l IH]; [reflexivity|]. cbn [flat_map length]. rewrite app_length, bits_of_length, IH. lia. Qed.
Lemma write_terms_ok b L l : bvb_ok b L -> good_terms l ->
  exists b' M, write_terms b l = Ok b' /\ bvb_ok b' (L ++ M) /\ enc_terms l L M /\ length M <= 38 * length l.
Proof.
  intros Hb (Hne & Hl). unfold write_terms. set (m := fold_right N.max 0%N l).
  assert (Hm : (m < 4294967295)%N) by (apply max_lt; [lia|assumption]).
  rewrite N.mod_small by lia. destruct (ceil_log2_w_ok (m + 1)) as (r & Er & H1 & H2); [unfold W64; lia|].
  assert (Hr : r <= 32) by (apply H2; assert (2 ^ N.of_nat 32 = 4294967296)%N by reflexivity; lia).
  set (w := if r =? 0 then 1 else r). assert (Hw : 1 <= w <= 32 /\ r <= w) by (unfold w; destruct (Nat.eqb_spec r 0); lia).
  assert (Hlw : Forall (fun t => (t < 2 ^ N.of_nat w)%N) l).
  { apply Forall_forall. intros t Ht. pose proof (max_ge l t Ht) as Hge. fold m in Hge. pose proof (N.pow_le_mono_r 2 (N.of_nat r) (N.of_nat w) ltac:(lia) ltac:(lia)). lia. }
  assert (Hc : exists b' M, (do b <- bvb_append_bits b (N.of_nat w) 6; append_all b l w) = Ok b' /\ bvb_ok b' (L ++ M) /\ enc_terms l L M /\ length M <= 38 * length l).
  { destruct (append_bits_ok b L (N.of_nat w) 6 Hb ltac:(lia)) as (b1 & -> & H3); [assert (2 ^ N.of_nat 6 = 64)%N by reflexivity; lia|]. cbn [bind].
    destruct (append_all_ok w l (proj1 Hw) Hlw b1 _ H3) as (b2 & -> & H4). exists b2, (bits_of 6 (N.of_nat w) ++ flat_map (bits_of w) l). split; [reflexivity|]. rewrite app_assoc. split; [assumption|].
    split; [exists w; repeat split; try lia; assumption|]. rewrite app_length, bits_of_length, flat_bits_length. destruct l; [congruence|]. cbn [length]. nia. }
  destruct l; [congruence|]. rewrite Er. cbn [bind]. fold w. exact Hc.
Qed.
Lemma terms_build_ok lists : lists <> [] -> Forall good_terms lists -> (N.of_nat (length (concat lists)) < 2 ^ 54)%N ->
  exists r, build_records write_terms lists = Ok r /\
    forall t l, nth_error lists t = Some l -> exists base w, terms_getter r t = Ok (base, w) /\
      forall i, i < length l -> getter_access (v_words (r_data r)) base w i = Ok (nth i l 0%N).
Proof.
  intros Hne Hg Htot.
  destruct (build_records_ok write_terms enc_terms (fun l => 38 * length l) good_terms) with (xs := lists) as (r & B & E & Hr & Hq & Hget); try assumption.
  - intros b L l Hb Hl. now apply write_terms_ok.
  - rewrite total_linear. unfold W64. assert (2 ^ 54 = 18014398509481984)%N by reflexivity. lia.
  - exists r. split; [assumption|].
    intros t l Hl. destruct (Hget t l Hl) as (pre & M & post & EB & Ep & w & Hw & Hlw & EM). unfold terms_getter. rewrite Ep. cbn [bind].
    assert (Hr1 : repr (v_words (r_data r)) (pre ++ bits_of 6 (N.of_nat w) ++ flat_map (bits_of w) l ++ post)) by (rewrite EB, EM, <- app_assoc in Hr; exact Hr).
    rewrite (read_bits_of (r_data r) pre _ 6 _ Hr1 ltac:(lia)) by (assert (2 ^ N.of_nat 6 = 64)%N by reflexivity; lia). cbn [bind]. rewrite Nat2N.id. eexists _, _. split; [reflexivity|].
    intros i Hi. rewrite app_assoc in Hr1. set (P := pre ++ bits_of 6 (N.of_nat w)) in *.
    replace (length pre + 6) with (length P) by (unfold P; rewrite app_length, bits_of_length; reflexivity).
    pose proof (Nat.mul_le_mono_r (i + 1) (length l) w ltac:(lia)) as Hm.
    rewrite (getter_list _ _ (length P) w i Hr1 ltac:(lia)) by (rewrite !app_length, flat_bits_length; lia). f_equal.
    rewrite Forall_forall in Hlw. rewrite <- (number_bits_of w (nth i l 0%N)) by (apply Hlw, nth_In; assumption). f_equal.
    rewrite skipn_app, skipn_all2 by lia. cbn [app]. replace (length P + i * w - length P) with (i * w) by lia.
    clear -Hi. revert i Hi. induction l as [|t l IH]; intros i Hi; cbn [length] in Hi; [lia|]. cbn [flat_map]. rewrite <- app_assoc. destruct i as [|i].
    + cbn [Nat.mul skipn nth]. rewrite firstn_app, bits_of_length, Nat.sub_diag. cbn [firstn]. rewrite app_nil_r. apply firstn_all2. rewrite bits_of_length. lia.
    + rewrite skipn_app, skipn_all2 by (rewrite bits_of_length; nia). rewrite bits_of_length. cbn [app nth]. replace (S i * w - w) with (i * w) by nia. apply IH. lia.
Qed.
