(** Marked positions, and numbers packed one after the other. *)
From Verif Require Import Base M_Word S_Bits P_Word M_Bits P_Bits P_Rank P_BitsRead.
Local Open Scope nat_scope.

(** [f] holds exactly at [h 0 < h 1 < ... < h (n - 1)]. *)
Record marks (f : nat -> bool) (h : nat -> nat) (n : nat) : Prop := {
  mk_inc : forall i j, i < j -> j < n -> h i < h j;
  mk_iff : forall p, f p = true <-> exists i, i < n /\ h i = p
}.
Lemma marks_cnt f h n : marks f h n -> forall p, cnt f p <= n /\ (forall i, i < cnt f p -> h i < p) /\ (forall i, cnt f p <= i -> i < n -> p <= h i).
Proof.
  intros [Hinc Hiff]. induction p as [|p (H1 & H2 & H3)]; cbn [cnt]; [repeat split; lia|].
  destruct (f p) eqn:E.
  - apply Hiff in E as (i & Hi & E).
    assert (Hc : i = cnt f p).
    { destruct (Nat.lt_trichotomy i (cnt f p)) as [L|[L|L]]; [|assumption|]; [specialize (H2 i L); lia|].
      pose proof (H3 (cnt f p) ltac:(lia) ltac:(lia)). pose proof (Hinc _ _ L Hi). lia. }
    subst i. split; [lia|]. split.
    + intros i Hi'. destruct (Nat.eq_dec i (cnt f p)) as [->|]; [lia|]. specialize (H2 i ltac:(lia)). lia.
    + intros i Hi' Hn. pose proof (Hinc (cnt f p) i ltac:(lia) Hn). lia.
  - rewrite Nat.add_0_r. split; [assumption|]. split; [intros i Hi; specialize (H2 i Hi); lia|].
    intros i Hi Hn. specialize (H3 i Hi Hn). destruct (Nat.eq_dec (h i) p); [|lia].
    assert (f p = true) by (apply Hiff; eauto). congruence.
Qed.
Lemma marks_at f h n i : marks f h n -> i < n -> f (h i) = true /\ cnt f (h i) = i.
Proof.
  intros Hm Hi. split; [apply (mk_iff _ _ _ Hm); eauto|]. destruct (marks_cnt f h n Hm (h i)) as (H1 & H2 & H3).
  destruct (Nat.lt_trichotomy i (cnt f (h i))) as [L|[L|L]]; [specialize (H2 i L); lia|congruence|].
  specialize (H3 (cnt f (h i)) ltac:(lia) ltac:(lia)). pose proof (mk_inc _ _ _ Hm _ _ L Hi). lia.
Qed.
Lemma marks_total f h n p : marks f h n -> (forall i, i < n -> h i < p) -> cnt f p = n.
Proof.
  intros Hm H. destruct (marks_cnt f h n Hm p) as (H1 & H2 & H3). destruct (Nat.eq_dec (cnt f p) n); [assumption|].
  specialize (H3 (cnt f p) ltac:(lia) ltac:(lia)). specialize (H (cnt f p) ltac:(lia)). lia.
Qed.
Lemma marks_gap f h n i p : marks f h n -> i + 1 < n -> h i < p < h (i + 1) -> f p = false.
Proof.
  intros Hm Hi Hp. destruct (f p) eqn:E; [|reflexivity]. apply (mk_iff _ _ _ Hm) in E as (j & Hj & <-).
  destruct (Nat.lt_trichotomy j i) as [L|[->|L]]; [pose proof (mk_inc _ _ _ Hm j i L); lia|lia|].
  destruct (Nat.eq_dec j (i + 1)) as [->|]; [lia|]. pose proof (mk_inc _ _ _ Hm (i + 1) j ltac:(lia) Hj). lia.
Qed.
Lemma marks_last f h n p : marks f h n -> 0 < n -> h (n - 1) < p -> f p = false.
Proof.
  intros Hm Hn Hp. destruct (f p) eqn:E; [|reflexivity]. apply (mk_iff _ _ _ Hm) in E as (j & Hj & <-).
  destruct (Nat.eq_dec j (n - 1)) as [->|]; [lia|]. pose proof (mk_inc _ _ _ Hm j (n - 1) ltac:(lia) ltac:(lia)). lia.
Qed.
(** One more mark. *)
Lemma marks_set l h n v : marks (fun j => nth j l false) h n -> (forall i, i < n -> h i < v) -> h n = v -> v < length l ->
  marks (fun j => nth j (upd l v true) false) h (n + 1).
Proof.
  intros [Hinc Hiff] Hlt Hv Hl. split.
  - intros i j Hij Hj. destruct (Nat.eq_dec j n) as [->|]; [rewrite Hv; apply Hlt; lia|apply Hinc; lia].
  - intros p. assert (E : nth p (upd l v true) false = if p =? v then true else nth p l false).
    { destruct (Nat.eqb_spec p v) as [->|Hne].
      - apply nth_error_nth. rewrite upd_nth_error. rewrite Nat.eqb_refl. now apply Nat.ltb_lt in Hl as ->.
      - destruct (nth_error l p) eqn:En.
        + rewrite (nth_error_nth _ _ _ En). apply nth_error_nth. rewrite upd_nth_error. destruct (Nat.eqb_spec v p); [congruence|assumption].
        + apply nth_error_None in En. rewrite !nth_overflow by (rewrite ?upd_length; assumption). reflexivity. }
    rewrite E; clear E. destruct (Nat.eqb_spec p v) as [Epv|Hne].
    + split; [|reflexivity]. intros _. exists n. split; [lia|congruence].
    + rewrite Hiff. split; intros (i & Hi & Ei); exists i; (split; [|assumption]); [lia|]. destruct (Nat.eq_dec i n) as [->|]; [congruence|lia].
Qed.

(** ** Packed numbers *)
Definition packed (w : nat) (vs : list N) : list bool := concat (map (bits_of w) vs).
Lemma packed_length w vs : length (packed w vs) = length vs * w.
Proof. unfold packed. induction vs as [|v vs IH]; cbn [map concat length]; [reflexivity|]. rewrite app_length, bits_of_length, IH. lia. Qed.
Lemma packed_app w vs us : packed w (vs ++ us) = packed w vs ++ packed w us.
Proof. unfold packed. now rewrite map_app, concat_app. Qed.
Lemma packed_one w v : packed w [v] = bits_of w v.
Proof. apply app_nil_r. Qed.
Lemma packed_nth w vs : forall i c, i < length vs -> c < w -> nth (i * w + c) (packed w vs) false = tb (nth i vs 0%N) c.
Proof.
  induction vs as [|v vs IH]; intros i c Hi Hc; cbn [length] in Hi; [lia|]. change (packed w (v :: vs)) with (bits_of w v ++ packed w vs).
  rewrite nth_app_if, bits_of_length. destruct i as [|i]; cbn [nth].
  - destruct (Nat.ltb_spec (0 * w + c) w); [|lia]. cbn [Nat.mul Nat.add]. rewrite nth_bits_of. destruct (Nat.ltb_spec c w); [reflexivity|lia].
  - destruct (Nat.ltb_spec (S i * w + c) w); [lia|]. replace (S i * w + c - w) with (i * w + c) by lia. apply IH; lia.
Qed.
Lemma packed_0 vs : packed 0 vs = [].
Proof. destruct (packed 0 vs) eqn:E; [reflexivity|]. apply (f_equal (@length bool)) in E. rewrite packed_length in E. cbn in E. lia. Qed.
Lemma packed_bits ws w vs pre post i r : repr ws (pre ++ packed w vs ++ post) -> i < length vs ->
  field ws (length pre + i * w) w r -> r = (nth i vs 0 mod 2 ^ N.of_nat w)%N.
Proof.
  intros Hr Hi Hf. apply tb_ext. intros c. rewrite Hf, tb_mod_pow. destruct (Nat.ltb_spec c w); [|reflexivity]. cbn [andb].
  rewrite (repr_bits _ _ Hr). assert (i * w + c < length vs * w) by nia. rewrite app_nth2 by lia. rewrite app_nth1 by (rewrite packed_length; lia).
  replace (length pre + i * w + c - length pre) with (i * w + c) by lia. now apply packed_nth.
Qed.

(** A number from its high and its low part. *)
Lemma join_parts v l : l < 64 -> (v < W64)%N ->
  N.lor (wrap (N.shiftl (N.shiftr v (N.of_nat l)) (N.of_nat l))) (v mod 2 ^ N.of_nat l) = v.
Proof.
  intros Hl Hv. apply tb_ext. intros i. rewrite tb_lor, tb_wrap, tb_shiftl, tb_shiftr, tb_mod_pow.
  destruct (Nat.ltb_spec i 64); cbn [andb].
  - destruct (Nat.leb_spec l i), (Nat.ltb_spec i l); try (exfalso; lia); cbn [andb orb]; [|reflexivity].
    replace (i - l + l) with i by lia. apply orb_false_r.
  - rewrite (tb_high v i) by assumption. now rewrite andb_false_r.
Qed.
