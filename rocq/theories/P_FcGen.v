(** Generic facts about front-coded dictionaries: the builder's layout and the
    binary searches over bucket headers. *)
From Verif Require Import Base S_Order P_Order P_Compare M_Compare M_Fc.


Section Bucket.
  Context {bucket : bucket_size}.

(** ** Prefix sums of lengths *)
Fixpoint psums {A} (base : nat) (ls : list (list A)) : list nat :=
  match ls with
  | [] => []
  | l :: ls' => (base + length l) :: psums (base + length l) ls'
  end.

Lemma psums_length {A} base (ls : list (list A)) : length (psums base ls) = length ls.
Proof. revert base; induction ls; intros; cbn; auto. Qed.

Lemma psums_nth {A} (ls : list (list A)) base i :
  i <= length ls -> nth_error (base :: psums base ls) i = Some (base + length (concat (firstn i ls))).
Proof.
  revert base i; induction ls as [|l ls IH]; intros base i Hi; cbn [length] in Hi.
  - replace i with 0 by lia. cbn. f_equal. lia.
  - destruct i as [|i]; cbn [nth_error firstn concat length]; [f_equal; cbn; lia|].
    cbn [psums]. rewrite IH by lia. rewrite app_length. f_equal. lia.
Qed.

Lemma concat_slice {A} (ls : list (list A)) i l rest :
  nth_error ls i = Some l ->
  skipn (length (concat (firstn i ls))) (concat ls ++ rest) = l ++ concat (skipn (S i) ls) ++ rest.
Proof.
  revert i; induction ls as [|a ls IH]; intros i H; [destruct i; discriminate|].
  destruct i as [|i]; cbn in *.
  - injection H as ->. now rewrite app_assoc.
  - rewrite app_length, <- app_assoc. rewrite skipn_app.
    rewrite (skipn_all2 a) by lia. cbn.
    replace (length a + length (concat (firstn i ls)) - length a) with (length (concat (firstn i ls))) by lia.
    apply IH; assumption.
Qed.

Lemma concat_firstn_S {A} (ls : list (list A)) i l :
  nth_error ls i = Some l ->
  length (concat (firstn (S i) ls)) = length (concat (firstn i ls)) + length l.
Proof.
  revert i; induction ls as [|a ls IH]; intros i H; [destruct i; discriminate|].
  destruct i as [|i]; cbn in *.
  - injection H as ->. rewrite app_nil_r. lia.
  - rewrite !app_length. cbn in IH. rewrite (IH i H). lia.
Qed.

(** ** What the builder writes *)
Fixpoint adj (R : list N -> list N -> Prop) (ls : list (list N)) : Prop :=
  match ls with
  | a :: (b :: _) as rest => R a b /\ adj R rest
  | _ => True
  end.

Lemma adj_tail (R : list N -> list N -> Prop) a ls : adj R (a :: ls) -> adj R ls.
Proof. destruct ls; cbn; tauto. Qed.

Lemma adj_skipn (R : list N -> list N -> Prop) k ls : adj R ls -> adj R (skipn k ls).
Proof.
  revert ls; induction k as [|k IH]; intros ls H; [exact H|].
  destruct ls as [|a ls]; [exact I|]. cbn [skipn]. apply IH. now apply adj_tail in H.
Qed.

(** The file holds [map term ts]; the builder writes [wr p s] for the logical
    strings [p], [s] whenever they are related by [R] (adjacent in the file). *)
Section Layout.
  Variable term : list N -> list N.
  Variable R : list N -> list N -> Prop.
  Variable wrR : list N -> list N -> res (list N).
  Variable wr : list N -> list N -> list N.
  Variable wh : list N -> list N.
  Hypothesis Hwr : forall p s, R p s -> wrR (term p) (term s) = Ok (wr p s).
  Hypothesis Hwh : forall h, wh (term h) = h.

  Fixpoint encs (prev : list N) (ss : list (list N)) : list N :=
    match ss with
    | [] => []
    | s :: ss' => wr prev s ++ encs s ss'
    end.

  Fixpoint chunks (r tail : nat) (input : list (list N)) : list (list (list N)) :=
    match r with
    | O => []
    | S r' =>
        let k := S (if r' =? 0 then tail else BUCKET) in
        firstn k input :: chunks r' tail (skipn k input)
    end.

  Lemma write_bucket_ok k prev input mb :
    adj R (prev :: input) ->
    k <= length input ->
    fc_write_bucket wrR k (term prev) (map term input) mb =
    Ok (mb ++ encs prev (firstn k input), map term (skipn k input)).
  Proof.
    revert prev input mb; induction k as [|k IH]; intros prev input mb Ha Hk; cbn.
    - now rewrite app_nil_r.
    - destruct input as [|c input]; cbn in Hk; [lia|].
      cbn [map]. destruct Ha as [Ha1 Ha2].
      rewrite Hwr by exact Ha1. cbn [bind].
      rewrite IH by (auto; lia). cbn [encs firstn skipn]. now rewrite app_assoc.
  Qed.

  Lemma write_buckets_ok r tail input ph pb hd mb :
    adj R input ->
    (r = 0 \/ (r - 1) * (BUCKET + 1) + 1 + tail <= length input) ->
    let cs := chunks r tail input in
    let hs := map (fun c => List.hd [] c) cs in
    let es := map (fun c => encs (List.hd [] c) (tl c)) cs in
    fc_write_buckets wrR wh r tail (map term input) ph pb hd mb =
    Ok (ph ++ psums (length hd) hs, pb ++ psums (length mb) es, hd ++ concat hs, mb ++ concat es).
  Proof.
    revert input ph pb hd mb; induction r as [|r IH]; intros input ph pb hd mb Ha Hl; cbn zeta.
    - cbn. now rewrite !app_nil_r.
    - destruct Hl as [Hl|Hl]; [discriminate|].
      cbn [fc_write_buckets chunks].
      destruct input as [|header input]; [cbn [length] in Hl; lia|].
      cbn [length] in Hl. cbn [map].
      set (k := if r =? 0 then tail else BUCKET) in *.
      assert (Hk : k <= length input).
      { subst k. destruct (Nat.eqb_spec r 0); [subst; lia|]. nia. }
      rewrite write_bucket_ok by assumption. cbn [bind]. rewrite Hwh.
      rewrite IH.
      2:{ apply adj_skipn. now apply adj_tail in Ha. }
      2:{ destruct (Nat.eqb_spec r 0); [now left|right]. rewrite skipn_length. subst k. nia. }
      cbn [firstn skipn map List.hd tl concat psums].
      rewrite !app_length, <- !app_assoc. reflexivity.
  Qed.

  Lemma chunks_length r tail input : length (chunks r tail input) = r.
  Proof. revert input; induction r; intros; cbn; auto. Qed.

  Lemma chunks_nth r tail input b :
    b < r ->
    nth_error (chunks r tail input) b =
    Some (firstn (S (if b =? r - 1 then tail else BUCKET)) (skipn (b * (BUCKET + 1)) input)).
  Proof.
    revert input b; induction r as [|r IH]; intros input b Hb; [lia|].
    cbn [chunks]. destruct b as [|b].
    - cbn [nth_error Nat.mul skipn]. f_equal.
      destruct (Nat.eqb_spec r 0), (Nat.eqb_spec 0 (S r - 1)); try lia; reflexivity.
    - cbn [nth_error]. rewrite IH by lia. f_equal.
      destruct (Nat.eqb_spec r 0); [lia|].
      rewrite skipn_skipn.
      replace (b * (BUCKET + 1) + S BUCKET) with (S b * (BUCKET + 1)) by nia.
      destruct (Nat.eqb_spec b (r - 1)), (Nat.eqb_spec (S b) (S r - 1)); try lia; reflexivity.
  Qed.
End Layout.

(** ** Number of buckets *)
Lemma num_buckets_pos n : 0 < n -> 0 < fc_num_buckets n.
Proof. intros. unfold fc_num_buckets. pose proof (Nat.div_str_pos (n + BUCKET) (BUCKET + 1)). lia. Qed.

Lemma num_buckets_total n :
  n mod (BUCKET + 1) <> 0 ->
  (fc_num_buckets n - 1) * (BUCKET + 1) + 1 + fc_tail n = n.
Proof.
  unfold fc_num_buckets, fc_tail; cbn [Nat.add]. intros H.
  pose proof (Nat.div_mod n (BUCKET + 1) ltac:(lia)) as E.
  pose proof (Nat.mod_upper_bound n (BUCKET + 1) ltac:(lia)) as M.
  assert (E2 : (n + BUCKET) / (BUCKET + 1) = n / (BUCKET + 1) + 1).
  { symmetry. apply Nat.div_unique with (r := n mod (BUCKET + 1) - 1); lia. }
  rewrite E2, Nat.add_sub. rewrite (Nat.mul_comm (BUCKET + 1)) in E.
  destruct (Nat.eqb_spec (n - n / (BUCKET + 1) * (BUCKET + 1)) 0); lia.
Qed.

Lemma num_buckets_le n :
  0 < n -> (fc_num_buckets n - 1) * (BUCKET + 1) + 1 + fc_tail n <= n.
Proof.
  unfold fc_num_buckets, fc_tail; cbn [Nat.add]. intros H.
  pose proof (Nat.div_mod n (BUCKET + 1) ltac:(lia)) as E.
  pose proof (Nat.mod_upper_bound n (BUCKET + 1) ltac:(lia)) as M.
  destruct (Nat.eq_dec (n mod (BUCKET + 1)) 0) as [Z|Z].
  - assert (E2 : (n + BUCKET) / (BUCKET + 1) = n / (BUCKET + 1)).
    { symmetry. apply Nat.div_unique with (r := BUCKET); lia. }
    rewrite E2. rewrite (Nat.mul_comm (BUCKET + 1)) in E. set (q := n / (BUCKET + 1)) in *. clearbody q.
    destruct q as [|q]; [lia|]. replace (S q - 1) with q by lia. destruct (Nat.eqb_spec (n - S q * (BUCKET + 1)) 0); cbn [Nat.mul] in *; lia.
  - assert (E2 : (n + BUCKET) / (BUCKET + 1) = n / (BUCKET + 1) + 1).
    { symmetry. apply Nat.div_unique with (r := n mod (BUCKET + 1) - 1); lia. }
    rewrite E2, Nat.add_sub. rewrite (Nat.mul_comm (BUCKET + 1)) in E.
    destruct (Nat.eqb_spec (n - n / (BUCKET + 1) * (BUCKET + 1)) 0); lia.
Qed.

(** ** Binary search for the bucket of a string *)
Section Search.
  Variable header : nat -> res (list N).
  Variable hs : nat -> list N.
  Variable nb : nat.
  Hypothesis Hhdr : forall b, b < nb -> header b = Ok (hs b).

  Local Open Scope Z_scope.

  Lemma mid_bounds lo hi : lo <= hi -> lo <= (lo + hi) / 2 <= hi.
  Proof.
    intros H. split.
    - apply Z.div_le_lower_bound; lia.
    - apply Z.div_le_upper_bound; lia.
  Qed.

  Lemma locate_bucket_ok cmpf t :
    (0 < nb)%nat ->
    (forall b, (b < nb)%nat -> sgn_is (cmpf (hs b) t) (lcmp (hs b) t)) ->
    (forall i j, (i < j < nb)%nat -> lex_lt (hs i) (hs j)) ->
    exists ish h b,
      locate_bucket cmpf header nb 0 t = Ok (ish, h, b) /\ (b < nb)%nat /\ h = hs b /\
      (ish = true -> hs b = t) /\
      (ish = false -> (b = 0%nat /\ lex_lt t (hs 0%nat) \/ lex_lt (hs b) t) /\
                      forall b', (b < b' < nb)%nat -> lex_lt t (hs b')).
  Proof.
    intros Hnb Hc Hmono.
    set (I := fun s : Z * Z * Z * Z * list N =>
                let '(lo, hi, mi, cmp, h) := s in
                0 <= lo <= hi + 1 /\ hi < Z.of_nat nb /\
                (forall b, (Z.of_nat b < lo) -> lex_lt (hs b) t) /\
                (forall b, hi < Z.of_nat b < Z.of_nat nb -> lex_lt t (hs b)) /\
                (cmp < 0 -> mi = lo - 1 /\ 0 <= mi < Z.of_nat nb /\ h = hs (Z.to_nat mi))).
    set (Q := fun r : bool * list N * nat =>
                let '(ish, h, b) := r in
                (b < nb)%nat /\ h = hs b /\
                (ish = true -> hs b = t) /\
                (ish = false -> (b = 0%nat /\ lex_lt t (hs 0%nat) \/ lex_lt (hs b) t) /\
                                forall b', (b < b' < nb)%nat -> lex_lt t (hs b'))).
    set (m := fun s : Z * Z * Z * Z * list N => let '(lo, hi, _, _, _) := s in Z.to_nat (hi + 1 - lo)).
    destruct (loop_ok (locate_bucket_step cmpf header t) I m Q) with
        (fuel := (nb + 2)%nat) (s := (Z.of_nat 0, Z.of_nat nb - 1, 0, 0, @nil N))
      as [[[ish h] b] [E HQ]].
    - intros [[[[lo hi] mi] cmp] h] (Hlo & Hhi & HL & HR & Hcmp).
      unfold locate_bucket_step. destruct (Z.leb_spec lo hi) as [Hle|Hgt].
      + pose proof (mid_bounds lo hi Hle) as Hm. set (mid := (lo + hi) / 2) in *.
        assert (Hmid : (Z.to_nat mid < nb)%nat) by lia.
        rewrite Hhdr by exact Hmid. cbn [bind].
        pose proof (Hc _ Hmid) as Hs. destruct (lcmp_spec (hs (Z.to_nat mid)) t) as (L1 & L2 & L3).
        destruct (Z.gtb_spec (cmpf (hs (Z.to_nat mid)) t) 0) as [Hg|Hg].
        * assert (lex_lt t (hs (Z.to_nat mid))) as Hlt by (apply L3, (sgn_gt _ _ Hs); lia).
          split; [|unfold m; lia].
          repeat split; try lia; try assumption.
          intros b Hb. destruct (Z.eq_dec (Z.of_nat b) mid) as [Eb|Nb].
          -- replace b with (Z.to_nat mid) by lia. assumption.
          -- apply lex_trans with (hs (Z.to_nat mid)); [assumption|]. apply Hmono. lia.
        * destruct (Z.ltb_spec (cmpf (hs (Z.to_nat mid)) t) 0) as [Hl|Hl].
          -- assert (lex_lt (hs (Z.to_nat mid)) t) as Hlt by (apply L1, (sgn_lt _ _ Hs); lia).
             split; [|unfold m; lia].
             repeat split; try lia; try assumption.
             intros b Hb. destruct (Z.eq_dec (Z.of_nat b) mid) as [Eb|Nb].
             ++ replace b with (Z.to_nat mid) by lia. assumption.
             ++ apply lex_trans with (hs (Z.to_nat mid)); [|assumption]. apply Hmono. lia.
          -- assert (hs (Z.to_nat mid) = t) as He by (apply L2, (sgn_eq _ _ Hs); lia).
             repeat split; auto; discriminate.
      + assert (lo = hi + 1) as -> by lia.
        destruct (Z.ltb_spec cmp 0) as [Hl|Hl].
        * destruct (Hcmp Hl) as (-> & Hmi & ->).
          repeat split; try lia; try discriminate.
          -- right. apply HL. lia.
          -- intros b' Hb'. apply HR. lia.
        * destruct (Z.eqb_spec hi (-1)) as [->|Hne].
          -- rewrite Hhdr by exact Hnb. cbn [bind]. repeat split; auto; try discriminate.
             ++ left. split; [reflexivity|]. apply HR. lia.
             ++ intros b' Hb'. apply HR. lia.
          -- rewrite Hhdr by lia. cbn [bind]. repeat split; auto; try lia; try discriminate.
             ++ right. apply HL. lia.
             ++ intros b' Hb'. apply HR. lia.
    - cbn. repeat split; try lia.
    - cbn. lia.
    - exists ish, h, b. unfold locate_bucket. split; [exact E|exact HQ].
  Qed.

  (** The plain binary search: [P b] = whether the search moves left at bucket [b]. *)
  Lemma bsearch_ok goleft cmpf lo0 :
    0 <= lo0 <= Z.of_nat nb ->
    (forall i j, (i <= j < nb)%nat -> lo0 <= Z.of_nat i ->
                 goleft (cmpf (hs i)) = true -> goleft (cmpf (hs j)) = true) ->
    exists lo mi cmp h,
      bsearch goleft cmpf header nb lo0 = Ok (lo, lo - 1, mi, cmp, h) /\
      lo0 <= lo <= Z.of_nat nb /\
      (forall b, lo0 <= Z.of_nat b < lo -> goleft (cmpf (hs b)) = false) /\
      (forall b, lo <= Z.of_nat b < Z.of_nat nb -> goleft (cmpf (hs b)) = true) /\
      (cmp <> 0 -> goleft cmp = false -> mi = lo - 1 /\ lo0 <= mi < Z.of_nat nb /\ h = hs (Z.to_nat mi)).
  Proof.
    intros Hlo0 Hmono.
    set (I := fun s : Z * Z * Z * Z * list N =>
                let '(lo, hi, mi, cmp, h) := s in
                lo0 <= lo <= hi + 1 /\ hi < Z.of_nat nb /\
                (forall b, lo0 <= Z.of_nat b < lo -> goleft (cmpf (hs b)) = false) /\
                (forall b, hi < Z.of_nat b < Z.of_nat nb -> goleft (cmpf (hs b)) = true) /\
                (cmp <> 0 -> goleft cmp = false -> mi = lo - 1 /\ lo0 <= mi < Z.of_nat nb /\ h = hs (Z.to_nat mi))).
    set (Q := fun s : Z * Z * Z * Z * list N => I s /\ let '(lo, hi, _, _, _) := s in hi = lo - 1).
    set (m := fun s : Z * Z * Z * Z * list N => let '(lo, hi, _, _, _) := s in Z.to_nat (hi + 1 - lo)).
    destruct (loop_ok (bsearch_step goleft cmpf header) I m Q) with
        (fuel := (nb + 2)%nat) (s := (lo0, Z.of_nat nb - 1, 0, 0, @nil N))
      as [[[[[lo hi] mi] cmp] h] [E [HI HQ]]].
    - intros [[[[lo hi] mi] cmp] h] (Hlo & Hhi & HL & HR & Hcmp).
      unfold bsearch_step. destruct (Z.leb_spec lo hi) as [Hle|Hgt].
      + pose proof (mid_bounds lo hi Hle) as Hm. set (mid := (lo + hi) / 2) in *.
        assert (Hmid : (Z.to_nat mid < nb)%nat) by lia.
        rewrite Hhdr by exact Hmid. cbn [bind].
        destruct (goleft (cmpf (hs (Z.to_nat mid)))) eqn:Eg.
        * split; [|unfold m; lia].
          repeat split; try lia; try assumption; try congruence.
          intros b Hb. apply Hmono with (Z.to_nat mid); [lia|lia|assumption].
        * split; [|unfold m; lia].
          repeat split; try lia; try assumption.
          intros b Hb. destruct (Z.eq_dec (Z.of_nat b) mid) as [Eb|Nb].
          -- replace b with (Z.to_nat mid) by lia. assumption.
          -- destruct (goleft (cmpf (hs b))) eqn:Eb; auto.
             rewrite (Hmono b (Z.to_nat mid)) in Eg; try lia; auto.
      + split; [|lia]. repeat split; try lia; try assumption; apply Hcmp; assumption.
    - cbn. repeat split; try lia.
    - cbn. lia.
    - cbn in HQ. subst hi. destruct HI as (H1 & H2 & H3 & H4 & H5).
      exists lo, mi, cmp, h. unfold bsearch. split; [exact E|]. split; [lia|].
      split; [exact H3|]. split; [|exact H5]. intros b Hb. apply H4. lia.
  Qed.
End Search.

(** ** Scans inside a bucket *)
Fixpoint pure_scan {R} (test : nat -> list N -> option R) (stop : R) (i : nat) (ss : list (list N)) : R :=
  match ss with
  | [] => stop
  | s :: ss' => match test i s with Some r => r | None => pure_scan test stop (i + 1) ss' end
  end.

Lemma pure_scan_spec {R} (test : nat -> list N -> option R) stop i ss :
  (exists j s r, nth_error ss j = Some s /\ test (i + j) s = Some r /\ pure_scan test stop i ss = r /\
               forall j' s', j' < j -> nth_error ss j' = Some s' -> test (i + j') s' = None) \/
  (pure_scan test stop i ss = stop /\ forall j' s', nth_error ss j' = Some s' -> test (i + j') s' = None).
Proof.
  revert i; induction ss as [|s ss IH]; intros i.
  - right. cbn. split; [reflexivity|]. intros [|j'] s' H; discriminate.
  - cbn [pure_scan]. destruct (test i s) as [r|] eqn:E.
    + left. exists 0, s, r. rewrite Nat.add_0_r. cbn. repeat split; auto. intros; lia.
    + destruct (IH (i + 1)) as [(j & s0 & r & H1 & H2 & H3 & H4)|[H1 H2]].
      * left. exists (S j), s0, r. replace (i + S j) with (i + 1 + j) by lia.
        repeat split; auto. intros [|j'] s' Hlt Hn; cbn in Hn.
        -- injection Hn as <-. now rewrite Nat.add_0_r.
        -- replace (i + S j') with (i + 1 + j') by lia. apply H4; [lia|assumption].
      * right. split; [assumption|]. intros [|j'] s' Hn; cbn in Hn.
        -- injection Hn as <-. now rewrite Nat.add_0_r.
        -- replace (i + S j') with (i + 1 + j') by lia. apply H2; assumption.
Qed.

(** The same with an outcome that may be UB when the scan ends. *)
Fixpoint pure_scan_res {R} (test : nat -> list N -> option R) (stop : res R) (i : nat) (ss : list (list N)) : res R :=
  match ss with
  | [] => stop
  | s :: ss' => match test i s with Some r => Ok r | None => pure_scan_res test stop (i + 1) ss' end
  end.

Lemma pure_scan_res_ok {R} (test : nat -> list N -> option R) stop i ss :
  pure_scan_res test (Ok stop) i ss = Ok (pure_scan test stop i ss).
Proof. revert i; induction ss as [|s ss IH]; intros i; cbn; [reflexivity|]. destruct (test i s); auto. Qed.

Lemma pure_scan_res_spec {R} (test : nat -> list N -> option R) stop i ss :
  (exists j s r, nth_error ss j = Some s /\ test (i + j) s = Some r /\ pure_scan_res test stop i ss = Ok r /\
               forall j' s', j' < j -> nth_error ss j' = Some s' -> test (i + j') s' = None) \/
  (pure_scan_res test stop i ss = stop /\ forall j' s', nth_error ss j' = Some s' -> test (i + j') s' = None).
Proof.
  revert i; induction ss as [|s ss IH]; intros i.
  - right. cbn. split; [reflexivity|]. intros [|j'] s' H; discriminate.
  - cbn [pure_scan_res]. destruct (test i s) as [r|] eqn:E.
    + left. exists 0, s, r. rewrite Nat.add_0_r. cbn. repeat split; auto. intros; lia.
    + destruct (IH (i + 1)) as [(j & s0 & r & H1 & H2 & H3 & H4)|[H1 H2]].
      * left. exists (S j), s0, r. replace (i + S j) with (i + 1 + j) by lia.
        repeat split; auto. intros [|j'] s' Hlt Hn; cbn in Hn.
        -- injection Hn as <-. now rewrite Nat.add_0_r.
        -- replace (i + S j') with (i + 1 + j') by lia. apply H4; [lia|assumption].
      * right. split; [assumption|]. intros [|j'] s' Hn; cbn in Hn.
        -- injection Hn as <-. now rewrite Nat.add_0_r.
        -- replace (i + S j') with (i + 1 + j') by lia. apply H2; assumption.
Qed.

Lemma bucket_mul a b : a < b -> a * (BUCKET + 1) + (BUCKET + 1) <= b * (BUCKET + 1).
Proof. intros H. replace (a * (BUCKET + 1) + (BUCKET + 1)) with (S a * (BUCKET + 1)) by (cbn; lia). apply Nat.mul_le_mono_r. lia. Qed.

Definition bsz (n b : nat) : nat := if b =? fc_num_buckets n - 1 then fc_tail n else BUCKET.

Lemma nb_bound n b : 0 < n -> b < fc_num_buckets n -> b * (BUCKET + 1) + 1 + bsz n b <= n.
Proof.
  intros Hn Hb. pose proof (num_buckets_le n Hn) as H. unfold bsz.
  destruct (Nat.eqb_spec b (fc_num_buckets n - 1)) as [->|Hne]; [lia|].
  pose proof (bucket_mul b (fc_num_buckets n - 1) ltac:(lia)). lia.
Qed.

Lemma fc_tail_le n : fc_tail n <= BUCKET.
Proof.
  unfold fc_tail. pose proof (Nat.div_mod n (BUCKET + 1) ltac:(lia)) as E. pose proof (Nat.mod_upper_bound n (BUCKET + 1) ltac:(lia)).
  rewrite (Nat.mul_comm (BUCKET + 1)) in E. destruct (Nat.eqb_spec (n - n / (BUCKET + 1) * (BUCKET + 1)) 0); lia.
Qed.

(** Index arithmetic of buckets. *)
Lemma split_index n i : n mod (BUCKET + 1) <> 0 -> i < n ->
  let b := i / (BUCKET + 1) in let k := i mod (BUCKET + 1) in
  i = b * (BUCKET + 1) + k /\ b < fc_num_buckets n /\ k <= bsz n b.
Proof.
  intros Hm Hi b k. subst b k.
  pose proof (num_buckets_total n Hm) as Ht. 
  pose proof (Nat.div_mod i (BUCKET + 1) ltac:(lia)) as E.
  pose proof (Nat.mod_upper_bound i (BUCKET + 1) ltac:(lia)) as M.
  rewrite (Nat.mul_comm (BUCKET + 1)) in E. pose proof (fc_tail_le n) as Htl.
  assert (0 < fc_num_buckets n) by (apply num_buckets_pos; lia).
  assert (Hlt : i / (BUCKET + 1) < fc_num_buckets n).
  { destruct (Nat.lt_ge_cases (i / (BUCKET + 1)) (fc_num_buckets n)) as [H1|H1]; [exact H1|].
    pose proof (bucket_mul (fc_num_buckets n - 1) (i / (BUCKET + 1)) ltac:(lia)). lia. }
  unfold bsz. destruct (Nat.eqb_spec (i / (BUCKET + 1)) (fc_num_buckets n - 1)) as [Eq|]; [rewrite <- Eq in Ht|]; lia.
Qed.

Lemma bucket_strs_len n b (terms : list (list N)) :
  n = length terms -> 0 < n -> b < fc_num_buckets n ->
  length (firstn (bsz n b) (skipn (b * (BUCKET + 1) + 1) terms)) = bsz n b.
Proof.
  intros -> Hn Hb. pose proof (nb_bound _ b Hn Hb). rewrite firstn_length, skipn_length. lia.
Qed.

Lemma bucket_strs_nth n b (terms : list (list N)) j :
  j < bsz n b ->
  nth j (firstn (bsz n b) (skipn (b * (BUCKET + 1) + 1) terms)) [] = nth (b * (BUCKET + 1) + 1 + j) terms [].
Proof. intros H. rewrite nth_firstn by exact H. apply nth_skipn. Qed.

Lemma Forall_sub {A} (P : A -> Prop) b k l : Forall P l -> Forall P (firstn k (skipn b l)).
Proof.
  intros H. apply Forall_forall. intros s Hs. rewrite Forall_forall in H. apply H.
  rewrite <- (firstn_skipn b l). apply in_or_app. right.
  rewrite <- (firstn_skipn k (skipn b l)). apply in_or_app. now left.
Qed.

Lemma Forall_nth_d {A} (P : A -> Prop) l i d : Forall P l -> i < length l -> P (nth i l d).
Proof. intros H Hi. rewrite Forall_forall in H. apply H. now apply nth_In. Qed.

(** ** Buckets: scanning and extracting, for an abstract encoding *)
Lemma lcp_le_l a b : lcp a b <= length a.
Proof. revert b; induction a as [|x a IH]; intros [|y b]; cbn; try lia.
  destruct (x =? y)%N; [specialize (IH b)|]; lia. Qed.
Lemma lcp_le_r a b : lcp a b <= length b.
Proof. revert b; induction a as [|x a IH]; intros [|y b]; cbn; try lia.
  destruct (x =? y)%N; [specialize (IH b)|]; lia. Qed.
Lemma lcp_firstn a b : firstn (lcp a b) a = firstn (lcp a b) b.
Proof.
  revert b; induction a as [|x a IH]; intros [|y b]; cbn; auto.
  destruct (N.eqb_spec x y) as [->|]; [|reflexivity]. cbn. now rewrite IH.
Qed.


Section LayoutRec.
  Variable wr : list N -> list N -> list N.
  Variable PAD : nat.

  (** The layout of a built dictionary holding [terms]. *)
  Record layout (d : fcd) (terms : list (list N)) : Prop := {
    lay_size : fc_size d = length terms;
    lay_buckets : fc_buckets d = fc_num_buckets (length terms);
    lay_header : forall b, b < fc_num_buckets (length terms) ->
        fc_header d b = Ok (nth (b * (BUCKET + 1)) terms []);
    lay_bucket : forall b, b < fc_num_buckets (length terms) ->
        exists cur rest, get (fc_pb d) b = Ok cur /\ PAD <= length rest /\
          skipn cur (fc_bkts d) =
          encs wr (nth (b * (BUCKET + 1)) terms []) (firstn (bsz (length terms) b) (skipn (b * (BUCKET + 1) + 1) terms)) ++ rest
  }.

Lemma build_layout (term : list N -> list N) (R : list N -> list N -> Prop) wrR wh terms :
  (forall p s, R p s -> wrR (term p) (term s) = Ok (wr p s)) ->
  (forall h, wh (term h) = h) ->
  adj R terms ->
  terms <> [] ->
  exists d,
    (do (ph, pb, hd, mb) <-
       fc_write_buckets wrR wh (fc_num_buckets (length terms)) (fc_tail (length terms)) (map term terms) [0] [0] [] [];
     Ok (Fcd (length terms) ph pb hd (mb ++ repeat 0%N PAD))) = Ok d /\ layout d terms.
Proof.
  intros Hwr Hwh Hadj Hne. set (n := length terms).
  assert (Hn : 0 < n) by (subst n; destruct terms; [congruence|cbn; lia]).
  rewrite (write_buckets_ok term R wrR wr wh Hwr Hwh) by (auto; right; apply num_buckets_le; exact Hn).
  cbn [bind]. eexists. split; [reflexivity|].
  set (nb := fc_num_buckets n). set (cs := chunks nb (fc_tail n) terms).
  set (hs := map (fun c => List.hd [] c) cs).
  set (es := map (fun c => encs wr (List.hd [] c) (tl c)) cs).
  assert (Hcs : length cs = nb) by apply chunks_length.
  assert (Hhs : length hs = nb) by (subst hs; rewrite map_length; exact Hcs).
  assert (Hes : length es = nb) by (subst es; rewrite map_length; exact Hcs).
  assert (Hc : forall b, b < nb -> exists c, nth_error cs b = Some c /\
            List.hd [] c = nth (b * (BUCKET + 1)) terms [] /\
            tl c = firstn (bsz n b) (skipn (b * (BUCKET + 1) + 1) terms)).
  { intros b Hb. exists (firstn (S (bsz n b)) (skipn (b * (BUCKET + 1)) terms)). split.
    - subst cs. rewrite chunks_nth by exact Hb. reflexivity.
    - pose proof (nb_bound n b Hn Hb) as Hbd.
      assert (Hsk : skipn (b * (BUCKET + 1)) terms = nth (b * (BUCKET + 1)) terms [] :: skipn (b * (BUCKET + 1) + 1) terms).
      { replace (b * (BUCKET + 1) + 1) with (1 + b * (BUCKET + 1)) by lia. rewrite <- skipn_skipn.
        assert (Hl : 0 < length (skipn (b * (BUCKET + 1)) terms)) by (rewrite skipn_length; fold n; lia).
        assert (E : nth 0 (skipn (b * (BUCKET + 1)) terms) [] = nth (b * (BUCKET + 1)) terms [])
          by (rewrite nth_skipn; f_equal; lia).
        destruct (skipn (b * (BUCKET + 1)) terms) as [|x l]; [cbn in Hl; lia|]. cbn in *. now subst. }
      rewrite Hsk. cbn. auto. }
  constructor.
  - reflexivity.
  - unfold fc_buckets. cbn [fc_ph]. rewrite app_length, psums_length. cbn [length].
    fold cs hs. fold n. fold nb. rewrite Hhs. lia.
  - intros b Hb. fold n in Hb. fold nb in Hb. destruct (Hc b Hb) as (c & Ec & Ehd & _).
    unfold fc_header. cbn [fc_ph fc_hdrs]. fold cs hs. cbn [app length].
    assert (Eh : nth_error hs b = Some (nth (b * (BUCKET + 1)) terms [])).
    { subst hs. rewrite nth_error_map, Ec. cbn. now rewrite Ehd. }
    rewrite (get_ok _ _ _ (psums_nth hs 0 b ltac:(lia))).
    rewrite (get_ok _ _ _ (psums_nth hs 0 (b + 1) ltac:(lia))). cbn [bind].
    rewrite Nat.add_1_r. cbn [Nat.add]. rewrite (concat_firstn_S _ _ _ Eh).
    pose proof (concat_slice hs b _ [] Eh) as Hsl. rewrite !app_nil_r in Hsl.
    assert (Hll : length (concat hs) - length (concat (firstn b hs)) =
                  length (nth (b * (BUCKET + 1)) terms []) + length (concat (skipn (S b) hs))).
    { rewrite <- app_length, <- Hsl, skipn_length. reflexivity. }
    assert (Hle : length (concat (firstn b hs)) <= length (concat hs)).
    { rewrite <- (firstn_skipn b hs) at 2. rewrite concat_app, app_length. lia. }
    replace (length (concat (firstn b hs)) + length (nth (b * (BUCKET + 1)) terms []) - length (concat (firstn b hs)))
      with (length (nth (b * (BUCKET + 1)) terms [])) by lia.
    rewrite slice_ok by lia. rewrite Hsl.
    rewrite firstn_app, Nat.sub_diag, firstn_all. cbn. now rewrite app_nil_r.
  - intros b Hb. fold n in Hb. fold nb in Hb. destruct (Hc b Hb) as (c & Ec & Ehd & Etl).
    cbn [fc_pb fc_bkts]. fold cs es. cbn [app length].
    assert (Ee : nth_error es b = Some (encs wr (nth (b * (BUCKET + 1)) terms []) (firstn (bsz n b) (skipn (b * (BUCKET + 1) + 1) terms)))).
    { subst es. rewrite nth_error_map, Ec. cbn. now rewrite Ehd, Etl. }
    exists (length (concat (firstn b es))), (concat (skipn (S b) es) ++ repeat 0%N PAD).
    rewrite (get_ok _ _ _ (psums_nth es 0 b ltac:(lia))).
    split; [reflexivity|]. split; [rewrite app_length, repeat_length; lia|].
    apply concat_slice. exact Ee.
Qed.

Lemma lay_bucket_size d terms b :
  layout d terms -> fc_bucket_size d b = bsz (length terms) b.
Proof.
  intros L. unfold fc_bucket_size, bsz. rewrite (lay_buckets _ _ L), (lay_size _ _ L).
  destruct (b =? fc_num_buckets (length terms) - 1); reflexivity.
Qed.

End LayoutRec.

Section Buckets.
  Variable wr : list N -> list N -> list N.
  Variable decode : list N -> nat -> list N -> nat -> res (nat * nat * list N).
  Variables w MX PAD : nat.
  Variable Good : list N -> Prop.
  Hypothesis Good_len : forall s, Good s -> length s <= MX.
  Hypothesis MX256 : MX < 256.
  Hypothesis decode_ok : forall mem cur out base prev s rest,
    skipn cur mem = wr prev s ++ rest ->
    PAD <= length rest -> Good s -> Good prev ->
    base + lcp s prev + MX <= length out ->
    firstn (length prev) (skipn base out) = prev ->
    exists out',
      decode mem cur out base = Ok (length s, lcp s prev, out') /\
      length out' = length out /\
      firstn base out' = firstn base out /\
      firstn (length s) (skipn base out') = s /\
      skipn (cur + (length s - lcp s prev) * w + 2) mem = rest.

  (** Scanning the strings of a bucket. *)
  Lemma fc_scan_ok {R} (test : nat -> list N -> option R) stop mem :
    forall ss prev i cur dec rest,
    skipn cur mem = encs wr prev ss ++ rest ->
    PAD <= length rest ->
    Forall Good ss -> Good prev ->
    2 * MX <= length dec ->
    firstn (length prev) dec = prev ->
    exists dec', fc_scan (decode mem) w test stop (length ss) i cur dec =
                 (do r <- pure_scan_res test stop i ss; Ok (r, dec'))
                 /\ length dec' = length dec.
  Proof.
    induction ss as [|s ss IH]; intros prev i cur dec rest Hmem Hrest Hss Hp Hdec Hprev.
    - exists dec. cbn. auto.
    - inversion Hss as [|? ? Hs Hss']; subst. cbn [encs] in Hmem. rewrite <- app_assoc in Hmem.
      pose proof (lcp_le_r s prev) as Hlr. pose proof (lcp_le_l s prev) as Hll.
      pose proof (Good_len _ Hp) as Hpl.
      destruct (decode_ok mem cur dec 0 prev s (encs wr s ss ++ rest)) as (out' & E & Hlen & _ & Hf & Hsk); auto.
      { rewrite app_length. lia. }
      { lia. }
      cbn [length fc_scan]. rewrite E. cbn [bind]. cbn [skipn] in Hf.
      pose proof (Good_len _ Hs) as Hsl. rewrite slice_ok by lia. cbn [skipn bind]. rewrite Hf.
      cbn [pure_scan_res]. destruct (test i s) as [r|].
      + exists out'. auto.
      + destruct (Nat.ltb_spec (length s) (lcp s prev)); [lia|].
        destruct (IH s (i + 1) (cur + (length s - lcp s prev) * w + 2) out' rest) as (dec' & E' & Hl'); auto; try lia.
        exists dec'. split; [exact E'|lia].
  Qed.

  (** Extracting the [k]-th string of a bucket. *)
  Lemma fc_extract_loop_ok mem :
    forall k ss prev cur out base rest,
    skipn cur mem = encs wr prev ss ++ rest ->
    PAD <= length rest ->
    Forall Good ss -> Good prev ->
    k <= length ss ->
    (k = 0 \/ base + 2 * MX <= length out) ->
    firstn (length prev) (skipn base out) = prev ->
    exists out', fc_extract_loop (decode mem) w k cur (length prev) out base = Ok (length (nth k (prev :: ss) []), out')
      /\ length out' = length out /\ firstn base out' = firstn base out
      /\ firstn (length (nth k (prev :: ss) [])) (skipn base out') = nth k (prev :: ss) [].
  Proof.
    induction k as [|k IH]; intros ss prev cur out base rest Hmem Hrest Hss Hp Hk Hout Hprev.
    - exists out. cbn. auto.
    - destruct Hout as [Hout|Hout]; [discriminate|].
      destruct ss as [|s ss]; cbn [length] in Hk; [lia|].
      inversion Hss as [|? ? Hs Hss']; subst. cbn [encs] in Hmem. rewrite <- app_assoc in Hmem.
      pose proof (lcp_le_r s prev) as Hlr. pose proof (lcp_le_l s prev) as Hll.
      pose proof (Good_len _ Hp) as Hpl.
      destruct (decode_ok mem cur out base prev s (encs wr s ss ++ rest)) as (out' & E & Hlen & Hfb & Hf & Hsk); auto.
      { rewrite app_length. lia. }
      { lia. }
      cbn [fc_extract_loop]. rewrite E. cbn [bind].
      destruct (Nat.ltb_spec (length s) (lcp s prev)); [lia|].
      destruct (IH ss s (cur + (length s - lcp s prev) * w + 2) out' base rest) as (out'' & E' & Hl' & Hfb' & Hf'); auto; try lia.
      exists out''. rewrite E'. cbn [nth] in *. repeat split; auto; try lia. congruence.
  Qed.

  Local Notation layout := (layout wr PAD).
  Arguments lay_bucket {wr PAD}.
  Arguments lay_header {wr PAD}.
  Arguments lay_bucket_size {wr PAD}.

  (** extract *)
  Lemma extract_at_ok d terms i out base :
    layout d terms -> Forall Good terms -> (length terms) mod (BUCKET + 1) <> 0 ->
    i < length terms ->
    base + 2 * MX <= length out ->
    let s := nth i terms [] in
    exists out', fc_extract_at (decode (fc_bkts d)) w d (i / (BUCKET + 1)) (i mod (BUCKET + 1)) out base = Ok (length s, out') /\
       length out' = length out /\ firstn base out' = firstn base out /\
       firstn (length s) (skipn base out') = s.
  Proof.
    intros L Hwf H17 Hi Hout s. subst s.
    set (n := length terms) in *.
    destruct (split_index n i H17 ltac:(lia)) as (Ei & Hb & Hk).
    unfold fc_extract_at.
    set (b := i / (BUCKET + 1)) in *. set (k := i mod (BUCKET + 1)) in *.
    rewrite (lay_header _ _ L b Hb). cbn [bind].
    pose proof (nb_bound n b ltac:(lia) Hb) as Hbd.
    pose proof (Forall_nth_d Good terms (b * (BUCKET + 1)) [] Hwf ltac:(fold n; lia)) as Hg.
    pose proof (Good_len _ Hg) as Hlen.
    set (h := nth (b * (BUCKET + 1)) terms []) in *.
    rewrite blit_ok by lia. cbn [bind].
    destruct (lay_bucket _ _ L b Hb) as (cur & rest & Ecur & Hrest & Hmem). fold h in Hmem.
    fold n in Hmem. rewrite Ecur. cbn [bind].
    set (out1 := firstn base out ++ h ++ skipn (base + length h) out).
    assert (Hfb : length (firstn base out) = base) by (rewrite firstn_length; lia).
    assert (Hl1 : length out1 = length out).
    { subst out1. rewrite !app_length, skipn_length. lia. }
    rewrite Nat.mod_small by lia.
    destruct (fc_extract_loop_ok (fc_bkts d) k (firstn (bsz n b) (skipn (b * (BUCKET + 1) + 1) terms)) h cur out1 base rest)
      as (out' & E & Hl' & Hf1 & Hf2); auto.
    - apply Forall_sub. exact Hwf.
    - rewrite (bucket_strs_len n b terms); auto. lia.
    - right. lia.
    - subst out1. rewrite skipn_app, Hfb, Nat.sub_diag. rewrite (skipn_all2 (firstn base out)) by lia.
      cbn [app skipn]. rewrite firstn_app, Nat.sub_diag, firstn_all. cbn. apply app_nil_r.
    - assert (En : nth k (h :: firstn (bsz n b) (skipn (b * (BUCKET + 1) + 1) terms)) [] = nth i terms []).
      { destruct k as [|k'] eqn:Ek; cbn [nth].
        - subst h. f_equal. lia.
        - rewrite bucket_strs_nth by lia. f_equal. lia. }
      rewrite En in *. exists out'. repeat split; auto; try lia.
      rewrite Hf1. subst out1. rewrite firstn_app, Hfb, Nat.sub_diag. cbn [firstn].
      rewrite app_nil_r. rewrite firstn_firstn. f_equal. lia.
  Qed.

  (** A scan of a bucket *)
  Lemma scan_bucket_res_ok {R} d terms b (test : nat -> list N -> option R) stop dec :
    layout d terms -> Forall Good terms -> terms <> [] -> b < fc_num_buckets (length terms) ->
    2 * MX <= length dec ->
    exists dec',
      fc_scan_bucket (decode (fc_bkts d)) w d (nth (b * (BUCKET + 1)) terms []) b test stop dec =
      (do r <- pure_scan_res test (stop (bsz (length terms) b)) 1
            (firstn (bsz (length terms) b) (skipn (b * (BUCKET + 1) + 1) terms)); Ok (r, dec')) /\ length dec' = length dec.
  Proof.
    intros L Hwf Hne Hb Hdec. set (n := length terms) in *.
    assert (Hn : 0 < n) by (subst n; destruct terms; [congruence|cbn; lia]).
    pose proof (nb_bound n b Hn Hb) as Hbd.
    pose proof (Forall_nth_d Good terms (b * (BUCKET + 1)) [] Hwf ltac:(fold n; lia)) as Hg.
    pose proof (Good_len _ Hg) as Hlen.
    set (h := nth (b * (BUCKET + 1)) terms []) in *.
    unfold fc_scan_bucket. rewrite blit_ok by lia. cbn [bind].
    destruct (lay_bucket _ _ L b Hb) as (cur & rest & Ecur & Hrest & Hmem). fold h in Hmem. fold n in Hmem.
    rewrite Ecur. cbn [bind]. rewrite (lay_bucket_size _ _ b L). fold n.
    cbn [firstn app Nat.add].
    set (dec1 := h ++ skipn (length h) dec).
    assert (Hd1 : length dec1 = length dec) by (subst dec1; rewrite app_length, skipn_length; lia).
    destruct (fc_scan_ok test (stop (bsz n b)) (fc_bkts d) (firstn (bsz n b) (skipn (b * (BUCKET + 1) + 1) terms))
                h 1 cur dec1 rest) as (dec' & E & Hl); auto.
    - apply Forall_sub. exact Hwf.
    - lia.
    - subst dec1. rewrite firstn_app, Nat.sub_diag, firstn_all. cbn. apply app_nil_r.
    - rewrite bucket_strs_len in E by auto.
      exists dec'. split; [exact E|lia].
  Qed.

  Lemma scan_bucket_ok {R} d terms b (test : nat -> list N -> option R) stop dec :
    layout d terms -> Forall Good terms -> terms <> [] -> b < fc_num_buckets (length terms) ->
    2 * MX <= length dec ->
    exists dec',
      fc_scan_bucket (decode (fc_bkts d)) w d (nth (b * (BUCKET + 1)) terms []) b test (fun n => Ok (stop n)) dec =
      Ok (pure_scan test (stop (bsz (length terms) b)) 1
            (firstn (bsz (length terms) b) (skipn (b * (BUCKET + 1) + 1) terms)), dec') /\ length dec' = length dec.
  Proof.
    intros L Hwf Hne Hb Hdec.
    destruct (scan_bucket_res_ok d terms b test (fun n => Ok (stop n)) dec L Hwf Hne Hb Hdec) as (dec' & E & Hl).
    exists dec'. split; [|exact Hl]. rewrite E, pure_scan_res_ok. reflexivity.
  Qed.
End Buckets.
End Bucket.
