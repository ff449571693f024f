(** Scanning for the leftmost minimum: what one pass over positions a, ..., b - 1 with a running minimum establishes. *)
From Coq Require Import ZArith.
From Verif Require Import Base P_Rank.
Local Open Scope nat_scope.

Definition scan (f : nat -> Z) (a b : nat) (m m' : Z) (k : option nat) : Prop :=
  match k with
  | None => m' = m /\ forall q, a <= q < b -> (m <= f q)%Z
  | Some p => (m' < m)%Z /\ a <= p < b /\ f p = m' /\ (forall q, a <= q < b -> (m' <= f q)%Z) /\ (forall q, a <= q < p -> (m' < f q)%Z)
  end.
Definition opt_or (k2 k1 : option nat) : option nat := match k2 with Some p => Some p | None => k1 end.
Definition idx_upd (k : option nat) (i : nat) : nat := match k with Some p => p | None => i end.

Lemma idx_upd_or k2 k1 i : idx_upd (opt_or k2 k1) i = idx_upd k2 (idx_upd k1 i).
Proof. now destruct k2. Qed.
Lemma scan_le f a b m m' k : scan f a b m m' k -> (m' <= m)%Z.
Proof. destruct k; cbn; lia. Qed.
Lemma scan_empty f a b m : b <= a -> scan f a b m m None.
Proof. split; [reflexivity|]. intros; lia. Qed.
Lemma scan_app f a b b' c m m1 m2 k1 k2 : a <= b' <= b -> b <= c ->
  scan f a b m m1 k1 -> scan f b' c m1 m2 k2 -> scan f a c m m2 (opt_or k2 k1).
Proof.
  intros Hb Hc H1 H2. assert (H1' : forall q, a <= q < b -> (m1 <= f q)%Z) by (destruct k1; cbn in H1; [apply H1|destruct H1 as [-> H1]; exact H1]).
  pose proof (scan_le _ _ _ _ _ _ H1) as Hle. destruct k2 as [p|].
  - destruct H2 as (Hlt & Hp & Ef & Hall & Hbef). cbn. split; [lia|]. split; [lia|]. split; [assumption|]. split.
    + intros q Hq. destruct (Nat.lt_ge_cases q b); [specialize (H1' q); lia|apply Hall; lia].
    + intros q Hq. destruct (Nat.lt_ge_cases q b); [specialize (H1' q); lia|apply Hbef; lia].
  - destruct H2 as (-> & Hall). cbn [opt_or]. destruct k1 as [p|].
    + destruct H1 as (Hlt & Hp & Ef & Hall1 & Hbef). cbn. split; [assumption|]. split; [lia|]. split; [assumption|]. split; [|assumption].
      intros q Hq. destruct (Nat.lt_ge_cases q b); [apply Hall1; lia|apply Hall; lia].
    + destruct H1 as (-> & Hall1). split; [reflexivity|]. intros q Hq. destruct (Nat.lt_ge_cases q b); [apply Hall1; lia|apply Hall; lia].
Qed.
Lemma scan_ext f g a b m m' k : (forall q, a <= q < b -> f q = g q) -> scan f a b m m' k -> scan g a b m m' k.
Proof.
  intros E. destruct k as [p|]; cbn.
  - intros (H1 & H2 & H3 & H4 & H5). split; [assumption|]. split; [assumption|]. split; [rewrite <- E by lia; assumption|]. split.
    + intros q Hq. rewrite <- E by lia. now apply H4.
    + intros q Hq. rewrite <- E by lia. now apply H5.
  - intros (H1 & H2). split; [assumption|]. intros q Hq. rewrite <- E by lia. now apply H2.
Qed.
(** Positions past the end that are not below the last one do not matter. *)
Lemma scan_cut f a b c m m' k : a < b <= c -> (forall q, b <= q < c -> (f (b - 1)%nat <= f q)%Z) -> scan f a c m m' k -> scan f a b m m' k.
Proof.
  intros Hb Hrise. destruct k as [p|]; cbn.
  - intros (H1 & H2 & H3 & H4 & H5). split; [assumption|]. destruct (Nat.lt_ge_cases p b) as [Hp|Hp].
    + split; [lia|]. split; [assumption|]. split; [|assumption]. intros q Hq. apply H4. lia.
    + exfalso. specialize (Hrise p ltac:(lia)). specialize (H5 (b - 1) ltac:(lia)). lia.
  - intros (H1 & H2). split; [assumption|]. intros q Hq. apply H2. lia.
Qed.
Lemma scan_shift f a n m m' k : scan (fun j => f (a + j)%nat) 0 n m m' k -> scan f a (a + n) m m' (option_map (fun j => a + j) k).
Proof.
  destruct k as [p|]; cbn.
  - intros (H1 & H2 & H3 & H4 & H5). split; [assumption|]. split; [lia|]. split; [assumption|]. split.
    + intros q Hq. replace q with (a + (q - a)) by lia. apply H4. lia.
    + intros q Hq. replace q with (a + (q - a)) by lia. apply H5. lia.
  - intros (H1 & H2). split; [assumption|]. intros q Hq. replace q with (a + (q - a)) by lia. apply H2. lia.
Qed.
Lemma scan_one f a m : scan f a (a + 1) m (if (f a <? m)%Z then f a else m) (if (f a <? m)%Z then Some a else None).
Proof.
  destruct (Z.ltb_spec (f a) m); cbn.
  - split; [assumption|]. split; [lia|]. split; [reflexivity|]. split; [|intros; lia]. intros q Hq. replace q with a by lia. lia.
  - split; [reflexivity|]. intros q Hq. replace q with a by lia. assumption.
Qed.

(** The minimum over a window. *)
Definition is_min (f : nat -> Z) (a b : nat) (v : Z) : Prop := (exists q, a <= q < b /\ f q = v) /\ forall q, a <= q < b -> (v <= f q)%Z.
Lemma is_min_app f a b b' c v w : a <= b' <= b -> b <= c -> is_min f a b v -> is_min f b' c w -> is_min f a c (Z.min v w).
Proof.
  intros Hb Hc ((q1 & Hq1 & E1) & H1) ((q2 & Hq2 & E2) & H2). split.
  - destruct (Z.min_spec v w) as [[_ ->]|[_ ->]]; [exists q1|exists q2]; (split; [lia|assumption]).
  - intros q Hq. destruct (Nat.lt_ge_cases q b); [specialize (H1 q)|specialize (H2 q)]; lia.
Qed.
Lemma is_min_one f a v : f a = v -> is_min f a (a + 1) v.
Proof. intros E. split; [exists a; split; [lia|assumption]|]. intros q Hq. replace q with a by lia. lia. Qed.
Lemma is_min_ext f g a b v : (forall q, a <= q < b -> f q = g q) -> is_min f a b v -> is_min g a b v.
Proof. intros E ((q & Hq & Eq) & H). split; [exists q; split; [assumption|rewrite <- E by assumption; assumption]|]. intros x Hx. rewrite <- E by assumption. now apply H. Qed.
Lemma is_min_le f a b v q : is_min f a b v -> a <= q < b -> (v <= f q)%Z.
Proof. intros [_ H]. apply H. Qed.

(** Windows of width w (each including the first position of the next): the windows number A, ..., B - 1 have minima g A, ...;
    scanning the minima and then the window found is scanning all the positions. *)
Section Windows.
  Variables (f g : nat -> Z) (w : nat).
  Hypothesis Hw : 0 < w.
  Variables A B : nat.
  Hypothesis Hg : forall k, A <= k < B -> is_min f (w * k) (w * k + w + 1) (g k).
  Lemma window_of q : w * A <= q < w * B -> exists k, A <= k < B /\ w * k <= q < w * k + w.
  Proof.
    intros H. exists (q / w). pose proof (Nat.div_mod q w) as E. pose proof (Nat.mod_upper_bound q w) as Hm. split; [|lia].
    split; [apply Nat.div_le_lower_bound; lia|apply Nat.div_lt_upper_bound; lia].
  Qed.
  Lemma scan_windows_none m : scan g A B m m None -> scan f (w * A) (w * B) m m None.
  Proof.
    intros (_ & H). split; [reflexivity|]. intros q Hq. destruct (window_of q Hq) as (k & Hk & Hqk). specialize (H k Hk).
    pose proof (is_min_le _ _ _ _ q (Hg k Hk)). lia.
  Qed.
  Lemma scan_windows_some m v k m' i : scan g A B m v (Some k) -> scan f (w * k) (w * k + w + 1) m m' i ->
    exists p, i = Some p /\ scan f (w * A) (w * B + 1) m m' (Some p).
  Proof.
    intros (H1 & H2 & H3 & H4 & H5) Hs. pose proof (Hg k H2) as Hk. destruct i as [p|].
    2:{ exfalso. destruct Hs as [_ Hs]. destruct Hk as [(q & Hq & Eq) _]. specialize (Hs q Hq). lia. }
    exists p. split; [reflexivity|]. destruct Hs as (S1 & S2 & S3 & S4 & S5).
    assert (Em : m' = v). { destruct Hk as [(q & Hq & Eq) Hall]. specialize (S4 q Hq). specialize (Hall p S2). lia. }
    subst m'. assert (w * (k + 1) <= w * B) by (apply Nat.mul_le_mono_l; lia). assert (w * A <= w * k) by (apply Nat.mul_le_mono_l; lia).
    cbn. split; [lia|]. split; [lia|]. split; [reflexivity|]. split.
    - intros q Hq. destruct (Nat.eq_dec q (w * B)) as [->|Hne].
      + assert (HB : A <= B - 1 < B) by lia. pose proof (is_min_le _ _ _ _ (w * B) (Hg (B - 1) HB)) as Hl. specialize (H4 (B - 1) HB).
        assert (w * (B - 1) + w = w * B) by (replace B with (B - 1 + 1) at 2 by lia; rewrite Nat.mul_add_distr_l; lia). lia.
      + destruct (window_of q) as (j & Hj & Hqj); [lia|]. specialize (H4 j Hj). pose proof (is_min_le _ _ _ _ q (Hg j Hj)). lia.
    - intros q Hq. destruct (Nat.lt_ge_cases q (w * k)) as [Hlt|Hge]; [|apply S5; lia].
      destruct (window_of q) as (j & Hj & Hqj); [lia|]. assert (j < k) by nia. specialize (H5 j). pose proof (is_min_le _ _ _ _ q (Hg j Hj)). lia.
  Qed.
End Windows.

(** The excess: ones minus zeros. *)
Definition E (f : nat -> bool) (p : nat) : Z := (2 * Z.of_nat (cnt f p) - Z.of_nat p)%Z.
Lemma E_0 f : E f 0 = 0%Z.
Proof. reflexivity. Qed.
Lemma E_S f p : E f (S p) = (E f p + (if f p then 1 else -1))%Z.
Proof. unfold E. rewrite cnt_S. destruct (f p); lia. Qed.
Lemma E_add f p q : E f (p + q) = (E f p + E (fun x => f (p + x)%nat) q)%Z.
Proof. unfold E. rewrite cnt_app. lia. Qed.
Lemma E_ext f g p : (forall q, q < p -> f q = g q) -> E f p = E g p.
Proof. intros H. unfold E. now rewrite (cnt_ext f g). Qed.
Lemma E_bound f p : (- Z.of_nat p <= E f p <= Z.of_nat p)%Z.
Proof. unfold E. pose proof (cnt_le f p). lia. Qed.
Lemma E_ones f p n : (forall q, p <= q < p + n -> f q = true) -> E f (p + n) = (E f p + Z.of_nat n)%Z.
Proof.
  induction n as [|n IH]; intros H; [rewrite Nat.add_0_r; lia|]. rewrite Nat.add_succ_r, E_S, IH, H by (intros; try apply H; lia). lia.
Qed.
