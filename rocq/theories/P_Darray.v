(** darray: the inventories describe the positions; select finds them. *)
From Coq Require Import ZArith.
From Verif Require Import Base M_Word S_Bits P_Word M_Bits P_Bits P_Rank P_BitsRead P_BitsIter M_Darray.
Local Open Scope nat_scope.

(** ** The bits the getter shows *)
Definition gbit (neg : bool) (ws : list N) (j : nat) : bool := if neg then negb (bitat ws j) else bitat ws j.
Lemma getter_lt neg w : (w < W64)%N -> (getter neg w < W64)%N.
Proof. destruct neg; cbn [getter]; auto. apply wnot_lt. Qed.
Lemma getter_tb neg w c : c < 64 -> tb (getter neg w) c = if neg then negb (tb w c) else tb w c.
Proof. intros H. destruct neg; cbn [getter]; [|reflexivity]. rewrite tb_wnot. destruct (Nat.ltb_spec c 64); [reflexivity|lia]. Qed.
Lemma getter_gbit neg ws a c : c < 64 -> tb (getter neg (nth a ws 0%N)) c = gbit neg ws (64 * a + c).
Proof. intros H. rewrite getter_tb by assumption. unfold gbit. now rewrite bitat_eq. Qed.

(** ** Pushing positions *)
Fixpoint pushes (s : dab) (ps : list nat) : res dab :=
  match ps with
  | [] => Ok s
  | p :: ps' => do s <- da_push s p; pushes s ps'
  end.
Lemma pushes_app s ps qs : pushes s (ps ++ qs) = do s <- pushes s ps; pushes s qs.
Proof. revert s; induction ps as [|p ps IH]; intros s; cbn; [reflexivity|]. destruct (da_push s p); cbn; auto. Qed.

Definition entry (blocks : list Z) (subs : list N) (over P : list nat) (b : nat) : Prop :=
  (exists front, nth_error blocks b = Some (Z.of_nat front) /\
     forall j, j < length P -> j / 1024 = b -> exists u, nth_error subs (j / 32) = Some u /\ front + N.to_nat u = nth (32 * (j / 32)) P 0) \/
  (exists o, nth_error blocks b = Some (- Z.of_nat o - 1)%Z /\
     forall j, j < length P -> j / 1024 = b -> nth_error over (o + j mod 1024) = Some (nth j P 0)).

Lemma nth_error_app_some {A} (l m : list A) i x : nth_error l i = Some x -> nth_error (l ++ m) i = Some x.
Proof. intros H. rewrite nth_error_app1; [assumption|]. apply nth_error_Some. congruence. Qed.
Lemma entry_extend blocks subs over P b bs' ss' os' P' : entry blocks subs over P b -> 1024 * (b + 1) <= length P ->
  entry (blocks ++ bs') (subs ++ ss') (over ++ os') (P ++ P') b.
Proof.
  intros H Hb.
  assert (Hj : forall j, j / 1024 = b -> j < length P) by (intros j Hj; pose proof (Nat.div_mod j 1024 ltac:(lia)); pose proof (Nat.mod_upper_bound j 1024 ltac:(lia)); lia).
  destruct H as [(front & Hf & H)|(o & Ho & H)]; [left; exists front|right; exists o]; (split; [now apply nth_error_app_some|]); intros j _ E; specialize (Hj j E).
  - destruct (H j Hj E) as (u & Hu & Eu). exists u. split; [now apply nth_error_app_some|]. rewrite app_nth1; [assumption|].
    pose proof (Nat.div_mod j 32 ltac:(lia)). lia.
  - apply nth_error_app_some. rewrite app_nth1 by assumption. now apply H.
Qed.

Record da_inv (P : list nat) (s : dab) : Prop := {
  di_n : da_n s = length P;
  di_blocks : length P = 1024 * length (da_blocks s) + length (da_cur s);
  di_small : length (da_cur s) < 1024;
  di_cur : da_cur s = skipn (1024 * length (da_blocks s)) P;
  di_subs : length (da_subs s) = 32 * length (da_blocks s);
  di_entry : forall b, b < length (da_blocks s) -> entry (da_blocks s) (da_subs s) (da_over s) P b
}.
Definition mono (P : list nat) : Prop := forall i j, i <= j -> j < length P -> nth i P 0 <= nth j P 0.

Lemma sub_starts_length n : length (sub_starts n) = (n + 31) / 32.
Proof. unfold sub_starts. now rewrite map_length, seq_length. Qed.
Lemma sub_starts_nth n i : 32 * i < n -> nth_error (sub_starts n) i = Some (32 * i).
Proof.
  intros H. unfold sub_starts. apply map_nth_error with (f := fun i => 32 * i) (d := i).
  rewrite (nth_error_nth' _ 0) by (rewrite seq_length; apply Nat.div_le_lower_bound; lia).
  rewrite seq_nth; [reflexivity|]. apply Nat.div_le_lower_bound; lia.
Qed.
Lemma last_nth {A} (l : list A) d d' : l <> [] -> List.last l d' = nth (length l - 1) l d.
Proof.
  induction l as [|x l IH]; [congruence|]. intros _. destruct l as [|y l]; [reflexivity|].
  change (List.last (x :: y :: l) d') with (List.last (y :: l) d'). rewrite IH by discriminate.
  cbn [length]. replace (S (S (length l)) - 1) with (S (S (length l) - 1)) by lia. reflexivity.
Qed.

(** flush of the last block, complete or not. *)
Lemma flush_ok P s : mono P -> da_cur s <> [] -> length (da_cur s) <= 1024 ->
  da_cur s = skipn (1024 * length (da_blocks s)) P -> length P = 1024 * length (da_blocks s) + length (da_cur s) ->
  length (da_subs s) = 32 * length (da_blocks s) ->
  (forall b, b < length (da_blocks s) -> entry (da_blocks s) (da_subs s) (da_over s) P b) ->
  exists s', da_flush s = Ok s' /\ da_n s' = da_n s /\ da_cur s' = [] /\ length (da_blocks s') = length (da_blocks s) + 1 /\
    length (da_subs s') = 32 * length (da_blocks s) + (length (da_cur s) + 31) / 32 /\
    forall b, b < length (da_blocks s') -> entry (da_blocks s') (da_subs s') (da_over s') P b.
Proof.
  intros Hm Hne Hle Hcur HP Hsub Hent. set (m := length (da_blocks s)) in *.
  assert (Hnth : forall i, nth i (da_cur s) 0 = nth (1024 * m + i) P 0) by (intros i; now rewrite Hcur, nth_skipn').
  assert (Hin : forall j, j < length P -> j / 1024 = m -> j = 1024 * m + j mod 1024 /\ j mod 1024 < length (da_cur s)).
  { intros j Hj E. pose proof (Nat.div_mod j 1024 ltac:(lia)). split; lia. }
  unfold da_flush. destruct (da_cur s) as [|front rest] eqn:Ec; [congruence|]. rewrite <- Ec in *.
  assert (Efront : front = nth (1024 * m) P 0) by (rewrite <- (Nat.add_0_r (1024 * m)), <- Hnth, Ec; reflexivity).
  assert (Hlen : 0 < length (da_cur s)) by (rewrite Ec; cbn; lia). clear Ec.
  rewrite (last_nth _ 0) by assumption. rewrite Hnth.
  destruct (N.ltb_spec (N.of_nat (nth (1024 * m + (length (da_cur s) - 1)) P 0 - front)) 65536) as [L|L];
    (eexists; split; [reflexivity|]); cbn [da_n da_cur da_blocks da_subs da_over];
    rewrite !app_length, map_length, sub_starts_length; cbn [length]; (repeat split; [lia..|]); fold m;
    intros b Hb; (destruct (Nat.eq_dec b m) as [->|Hbm]; [|rewrite <- (app_nil_r P); try rewrite <- (app_nil_r (da_over s)) at 1; apply entry_extend; [apply Hent; lia|rewrite HP; nia]]).
  - left. exists front. split; [rewrite nth_error_app2 by (fold m; lia); fold m; now rewrite Nat.sub_diag|].
    intros j Hj E. destruct (Hin j Hj E) as [Ej Hjm]. set (r := j mod 1024) in *.
    assert (Hr : r < 1024) by (apply Nat.mod_upper_bound; lia).
    assert (E32 : j / 32 = 32 * m + r / 32).
    { rewrite Ej. replace (1024 * m + r) with (r + 32 * m * 32) by lia. rewrite Nat.div_add by lia. lia. }
    pose proof (Nat.div_mod r 32 ltac:(lia)). rewrite E32. rewrite nth_error_app2 by lia. rewrite Hsub. replace (32 * m + r / 32 - 32 * m) with (r / 32) by lia.
    eexists. split; [apply map_nth_error, sub_starts_nth; lia|]. cbn beta. rewrite Hnth.
    replace (32 * (32 * m + r / 32)) with (1024 * m + 32 * (r / 32)) by lia. set (q := 32 * (r / 32)) in *.
    pose proof (Hm (1024 * m) (1024 * m + q) ltac:(lia) ltac:(lia)) as M1.
    pose proof (Hm (1024 * m + q) (1024 * m + (length (da_cur s) - 1)) ltac:(lia) ltac:(lia)) as M2.
    rewrite N.mod_small by lia. lia.
  - right. exists (length (da_over s)). split; [rewrite nth_error_app2 by (fold m; lia); fold m; now rewrite Nat.sub_diag|].
    intros j Hj E. destruct (Hin j Hj E) as [Ej Hjm]. rewrite nth_error_app2 by lia.
    replace (length (da_over s) + j mod 1024 - length (da_over s)) with (j mod 1024) by lia.
    rewrite (nth_error_nth' _ 0) by assumption. now rewrite Hnth, <- Ej.
Qed.

Lemma mono_app P Q : mono (P ++ Q) -> mono P.
Proof. intros H i j Hij Hj. specialize (H i j Hij). rewrite app_length, !app_nth1 in H by lia. apply H. lia. Qed.

Lemma push_inv P p s : mono (P ++ [p]) -> da_inv P s -> exists s', da_push s p = Ok s' /\ da_inv (P ++ [p]) s'.
Proof.
  intros Hm [Hn Hb Hs Hc Hsub He]. unfold da_push. set (s0 := {| da_n := da_n s; da_cur := da_cur s ++ [p]; da_blocks := da_blocks s; da_subs := da_subs s; da_over := da_over s |}).
  assert (Hl0 : length (da_cur s0) = length (da_cur s) + 1) by (cbn; now rewrite app_length).
  assert (Hc0 : da_cur s0 = skipn (1024 * length (da_blocks s0)) (P ++ [p])).
  { cbn [s0 da_cur da_blocks]. rewrite skipn_app, Hc at 1. f_equal. replace (_ - _) with 0 by lia. reflexivity. }
  assert (He0 : forall b, b < length (da_blocks s0) -> entry (da_blocks s0) (da_subs s0) (da_over s0) (P ++ [p]) b).
  { intros b Hb'. cbn [s0 da_blocks da_subs da_over] in *. rewrite <- (app_nil_r (da_blocks s)), <- (app_nil_r (da_subs s)), <- (app_nil_r (da_over s)).
    apply entry_extend; [now apply He|]. rewrite Hb. nia. }
  assert (HP : length (P ++ [p]) = length P + 1) by now rewrite app_length.
  destruct (Nat.eqb_spec (length (da_cur s0)) 1024) as [L|L]; cbn [bind].
  - destruct (flush_ok (P ++ [p]) s0) as (s' & E & En & Ec & Eb & Es & Ee); auto.
    + intros E. rewrite E in Hl0. cbn in Hl0. lia.
    + lia.
    + cbn [s0 da_blocks]. lia.
    + rewrite E. cbn [bind]. eexists. split; [reflexivity|]. rewrite L in Es. cbn [s0 da_n da_blocks] in *.
      change ((1024 + 31) / 32) with 32 in Es. constructor; cbn [da_n da_cur da_blocks da_subs da_over]; rewrite ?Ec; cbn [length]; try lia; auto.
      symmetry. apply skipn_all2. lia.
  - eexists. split; [reflexivity|]. cbn [s0 da_n da_blocks da_subs da_over da_cur] in *.
    constructor; cbn [da_n da_cur da_blocks da_subs da_over]; auto; try lia.
Qed.
Lemma pushes_inv Q : forall P s, mono (P ++ Q) -> da_inv P s -> exists s', pushes s Q = Ok s' /\ da_inv (P ++ Q) s'.
Proof.
  induction Q as [|p Q IH]; intros P s Hm H; cbn [pushes].
  - rewrite app_nil_r. eauto.
  - replace (P ++ p :: Q) with ((P ++ [p]) ++ Q) in * by now rewrite <- app_assoc.
    destruct (push_inv P p s (mono_app _ _ Hm) H) as (s' & -> & H'). cbn [bind]. now apply IH.
Qed.

(** ** Scanning the words *)
Lemma filter_none {A} (f : A -> bool) l : (forall x, In x l -> f x = false) -> filter f l = [].
Proof. induction l as [|x l IH]; intros H; cbn; [reflexivity|]. rewrite (H x) by (now left). apply IH. intros y Hy. apply H. now right. Qed.
Lemma skipn_cons_inv {A} (l : list A) i x r : skipn i l = x :: r -> skipn (S i) l = r.
Proof. revert i; induction l as [|y l IH]; intros [|i] H; cbn in *; try congruence. now apply IH in H. Qed.
Definition upto (neg : bool) (ws : list N) (size j : nat) : bool := gbit neg ws j && (j <? size).

Lemma da_word_ok g size s base w n : (w < W64)%N -> n <= 64 ->
  (forall c, tb w c = (c <? n) && g (base + c)) ->
  forall fuel, n + 1 < fuel ->
  loop fuel (da_word_step size) (base, w, s) = pushes s (filter (fun j => g j && (j <? size)) (seq base n)).
Proof.
  intros Hw Hn Hg fuel. revert n base w s Hw Hn Hg. induction fuel as [|fuel IH]; intros n base w s Hw Hn Hg Hf; [lia|].
  cbn [loop]. unfold da_word_step at 1.
  destruct (N.eq_dec w 0) as [E0|Hne].
  - unfold lsb2. rewrite (proj2 (N.eqb_eq _ _) E0). cbn [bind].
    replace (filter _ _) with (@nil nat); [reflexivity|]. symmetry. apply filter_none. intros x Hx. apply in_seq in Hx.
    specialize (Hg (x - base)). rewrite E0 in Hg. replace (base + (x - base)) with x in Hg by lia.
    destruct (Nat.ltb_spec (x - base) n); [|lia]. cbn [andb] in Hg. rewrite <- Hg. unfold tb. now rewrite N.bits_0.
  - destruct (lsb2_ok w Hne) as (l & E & Hl & Hz). rewrite E. cbn [bind].
    pose proof (Hg l) as Hgl. rewrite Hl in Hgl. symmetry in Hgl. apply andb_true_iff in Hgl as [Hln Hgl]. apply Nat.ltb_lt in Hln.
    rewrite shr_ok by lia. cbn [bind].
    assert (Esplit : filter (fun j => g j && (j <? size)) (seq base n) = filter (fun j => g j && (j <? size)) (seq (base + l) (n - l))).
    { replace n with (l + (n - l)) at 1 by lia. rewrite seq_app, filter_app. rewrite (filter_none _ (seq base l)); [reflexivity|].
      intros x Hx. apply in_seq in Hx. specialize (Hg (x - base)). rewrite Hz in Hg by lia. destruct (Nat.ltb_spec (x - base) n); [|lia].
      replace (base + (x - base)) with x in Hg by lia. cbn [andb] in Hg. now rewrite <- Hg. }
    rewrite Esplit. destruct (Nat.leb_spec size (base + l)).
    + rewrite filter_none; [reflexivity|]. intros x Hx. apply in_seq in Hx. destruct (Nat.ltb_spec x size); [lia|]. apply andb_false_r.
    + replace (n - l) with (S (n - l - 1)) by lia. cbn [seq filter]. rewrite Hgl. destruct (Nat.ltb_spec (base + l) size); [|lia]. cbn [andb pushes].
      destruct (da_push s (base + l)) as [s'| | |]; cbn [bind]; [|reflexivity..].
      rewrite shr_ok by lia. cbn [bind]. replace (S (base + l)) with (base + l + 1) by lia.
      apply IH; [now apply shiftr_lt, shiftr_lt|lia| |lia].
      intros c. rewrite !tb_shiftr. replace (c + 1 + l) with (l + 1 + c) by lia. rewrite Hg. replace (base + (l + 1 + c)) with (base + l + 1 + c) by lia.
      f_equal. destruct (Nat.ltb_spec (l + 1 + c) n), (Nat.ltb_spec c (n - l - 1)); try reflexivity; exfalso; lia.
Qed.

Lemma da_words_ok neg size ws : words ws -> forall vs idx s, skipn idx ws = vs ->
  da_words neg size idx vs s = pushes s (filter (upto neg ws size) (seq (64 * idx) (64 * length vs))).
Proof.
  intros Hw. induction vs as [|w vs IH]; intros idx s E; cbn [da_words]; [now rewrite Nat.mul_0_r|].
  assert (Ew : w = nth idx ws 0%N) by (rewrite <- (Nat.add_0_r idx), <- nth_skipn', E; reflexivity).
  cbn [length]. replace (64 * S (length vs)) with (64 + 64 * length vs) by lia. rewrite seq_app, filter_app, pushes_app.
  rewrite da_word_ok with (g := gbit neg ws) (n := 64).
  - fold (upto neg ws size). change (fun j => gbit neg ws j && (j <? size)) with (upto neg ws size).
    destruct (pushes s (filter (upto neg ws size) (seq (64 * idx) 64))) as [s'| | |]; cbn [bind]; [|reflexivity..].
    rewrite IH; [replace (64 * (idx + 1)) with (64 * idx + 64) by lia; reflexivity|]. apply skipn_cons_inv in E. now rewrite Nat.add_1_r.
  - apply getter_lt. rewrite Ew. now apply nth_word.
  - lia.
  - intros c. destruct (Nat.ltb_spec c 64); cbn [andb].
    + rewrite Ew. now apply getter_gbit.
    + apply tb_high; [|assumption]. apply getter_lt. rewrite Ew. now apply nth_word.
  - lia.
Qed.

(** The positions in order. *)
Definition poss (f : nat -> bool) (n : nat) : list nat := filter f (seq 0 n).
Lemma poss_S f n : poss f (S n) = poss f n ++ (if f n then [n] else []).
Proof. unfold poss. rewrite seq_S, filter_app. reflexivity. Qed.
Lemma poss_length f n : length (poss f n) = cnt f n.
Proof. induction n as [|n IH]; [reflexivity|]. rewrite poss_S, app_length, IH, cnt_S. now destruct (f n). Qed.
Lemma poss_nth f n i : i < cnt f n -> nth i (poss f n) 0 < n /\ f (nth i (poss f n) 0) = true /\ cnt f (nth i (poss f n) 0) = i.
Proof.
  induction n as [|n IH]; cbn [cnt]; [lia|]. intros H. rewrite poss_S, nth_app_if, poss_length.
  destruct (Nat.ltb_spec i (cnt f n)) as [L|L].
  - destruct (IH L) as (H1 & H2 & H3). repeat split; auto.
  - destruct (f n) eqn:E; [|lia]. replace (i - cnt f n) with 0 by lia. cbn [nth]. repeat split; auto. lia.
Qed.
Lemma poss_mono f n : mono (poss f n).
Proof.
  intros i j Hij Hj. rewrite poss_length in Hj. destruct (poss_nth f n i ltac:(lia)) as (H1 & H2 & H3). destruct (poss_nth f n j Hj) as (H4 & H5 & H6).
  destruct (Nat.le_gt_cases (nth i (poss f n) 0) (nth j (poss f n) 0)) as [L|L]; [assumption|].
  pose proof (cnt_lt f _ _ L H5). lia.
Qed.

Record da_ok (neg : bool) (v : bv) (d : darray) : Prop := {
  do_n : d_n d = cnt (upto neg (v_words v) (v_size v)) (64 * length (v_words v));
  do_entry : forall i, i < d_n d -> entry (d_blocks d) (d_subs d) (d_over d) (poss (upto neg (v_words v) (v_size v)) (64 * length (v_words v))) (i / 1024)
}.
Lemma da_build_ok neg v : words (v_words v) -> exists d, da_build neg v = Ok d /\ da_ok neg v d.
Proof.
  intros Hw. unfold da_build. rewrite da_words_ok with (ws := v_words v) by auto. rewrite Nat.mul_0_r.
  change (filter (upto neg (v_words v) (v_size v)) (seq 0 (64 * length (v_words v)))) with (poss (upto neg (v_words v) (v_size v)) (64 * length (v_words v))).
  set (P := poss (upto neg (v_words v) (v_size v)) (64 * length (v_words v))).
  assert (Hm : mono P) by apply poss_mono.
  destruct (pushes_inv P [] dab_empty) as (s & E & [Hn Hb Hs Hc Hsub He]); [assumption| |].
  { constructor; cbn; auto; lia. }
  cbn [app] in *. rewrite E. cbn [bind].
  destruct (da_cur s) as [|q rest] eqn:Ec.
  - cbn [bind]. eexists. split; [reflexivity|]. constructor; cbn [d_n d_blocks d_subs d_over]; [rewrite Hn; apply poss_length|].
    intros i Hi. apply He. cbn [length] in Hb. apply Nat.div_lt_upper_bound; lia.
  - rewrite <- Ec in *. destruct (flush_ok P s) as (s' & E' & En & Ec' & Eb & Es & Ee); auto; [congruence|lia|].
    rewrite E'. cbn [bind]. eexists. split; [reflexivity|]. constructor; cbn [d_n d_blocks d_subs d_over]; [rewrite En, Hn; apply poss_length|].
    intros i Hi. apply Ee. apply Nat.div_lt_upper_bound; lia.
Qed.

(** ** Scanning words for the r-th shown bit *)
Lemma da_scan_ok neg ws s r p fuel : words ws -> p < 64 * length ws -> s <= p -> gbit neg ws p = true -> cnt (gbit neg ws) p = cnt (gbit neg ws) s + r -> p / 64 - s / 64 < fuel ->
  (do w <- get ws (s / 64); do m <- shl ALL (s mod 64); loop fuel (da_scan_step neg ws) (r, s / 64, N.land (getter neg w) m)) = Ok p.
Proof.
  intros Hw Hpl Hsp Hp Hc Hf. pose proof (Nat.div_mod p 64 ltac:(lia)) as Ep. pose proof (Nat.mod_upper_bound p 64 ltac:(lia)) as Hpm.
  pose proof (Nat.div_mod s 64 ltac:(lia)) as Es. pose proof (Nat.mod_upper_bound s 64 ltac:(lia)) as Hsm.
  rewrite (get_nth ws _ 0%N) by (apply Nat.div_lt_upper_bound; lia). cbn [bind]. rewrite shl_ok by assumption. cbn [bind].
  set (g := fun j => (s <=? j) && gbit neg ws j).
  assert (Hg : g p = true) by (unfold g; rewrite Hp; destruct (Nat.leb_spec s p); [reflexivity|lia]).
  assert (Hgc : cnt g p = r).
  { assert (H0 : cnt g s = 0) by (apply cnt_zero; intros j Hj; unfold g; destruct (Nat.leb_spec s j); [lia|reflexivity]).
    replace p with (s + (p - s)) in * by lia. rewrite cnt_app, H0. rewrite cnt_app in Hc.
    rewrite (cnt_ext _ (fun x => gbit neg ws (s + x))); [lia|]. intros j _. unfold g. destruct (Nat.leb_spec s (s + j)); [reflexivity|lia]. }
  destruct (loop_ok_n (da_scan_step neg ws)
    (fun n '(r', idx, w) => n = p / 64 - idx /\ (w < W64)%N /\ s / 64 <= idx <= p / 64 /\ r' = r - cnt g (64 * idx) /\ cnt g (64 * idx) <= r /\ forall c, c < 64 -> tb w c = g (64 * idx + c))
    (fun x => x = p)) with (fuel := fuel) (n := p / 64 - s / 64) (s := (r, s / 64, N.land (getter neg (nth (s / 64) ws 0%N)) (wrap (N.shiftl ALL (N.of_nat (s mod 64))))))
    as (u & -> & ->); [| |assumption|reflexivity].
  - intros n [[r' idx] w] (-> & Hwl & Hi & -> & Hle & Ht). unfold da_scan_step.
    destruct (cnt_word g w idx Hwl Ht) as [Hcw _].
    destruct (Nat.ltb_spec (r - cnt g (64 * idx)) (popcount w)) as [L|L].
    + assert (Hin : 64 * idx <= p < 64 * (idx + 1)).
      { split; [eapply cnt_below; eauto|]. eapply cnt_above; eauto. lia. }
      rewrite (select_word g w idx r p) by auto. cbn [bind]. lia.
    + assert (Hlt : idx < p / 64).
      { destruct (Nat.lt_ge_cases idx (p / 64)); [assumption|]. pose proof (cnt_lt g p (64 * (idx + 1)) ltac:(lia) Hg). lia. }
      rewrite (get_nth ws _ 0%N) by lia. cbn [bind]. exists (p / 64 - (idx + 1)). split; [lia|]. split; [reflexivity|]. split; [now apply getter_lt, nth_word|].
      split; [lia|]. split; [lia|]. split; [lia|]. intros c Hc'. rewrite getter_gbit by assumption. unfold g. destruct (Nat.leb_spec s (64 * (idx + 1) + c)); [reflexivity|lia].
  - split; [reflexivity|]. split; [now apply land_lt, getter_lt, nth_word|]. split; [split; [lia|apply Nat.div_le_mono; lia]|].
    assert (H0 : cnt g (64 * (s / 64)) = 0) by (apply cnt_zero; intros j Hj; unfold g; destruct (Nat.leb_spec s j); [lia|reflexivity]).
    rewrite H0. split; [lia|]. split; [lia|]. intros c Hc'. rewrite tb_land, getter_gbit, tb_from by assumption. unfold g. rewrite andb_comm. f_equal.
    destruct (Nat.leb_spec (s mod 64) c), (Nat.leb_spec s (64 * (s / 64) + c)); try reflexivity; exfalso; lia.
Qed.

Lemma da_select_ok neg v d i fuel : words (v_words v) -> v_size v <= 64 * length (v_words v) -> da_ok neg v d -> i < d_n d -> length (v_words v) < fuel ->
  exists p, da_select neg d v fuel i = Ok p /\ p < v_size v /\ gbit neg (v_words v) p = true /\ cnt (gbit neg (v_words v)) p = i.
Proof.
  intros Hw Hsz [Hn He] Hi Hf. set (f := upto neg (v_words v) (v_size v)) in *. set (n := 64 * length (v_words v)) in *. set (P := poss f n) in *.
  assert (Hcnt : forall p, p <= v_size v -> cnt f p = cnt (gbit neg (v_words v)) p).
  { intros p Hp. apply cnt_ext. intros j Hj. unfold f, upto. destruct (Nat.ltb_spec j (v_size v)); [apply andb_true_r|lia]. }
  assert (Hnth : forall j, j < d_n d -> nth j P 0 < v_size v /\ gbit neg (v_words v) (nth j P 0) = true /\ cnt (gbit neg (v_words v)) (nth j P 0) = j).
  { intros j Hj. destruct (poss_nth f n j) as (H1 & H2 & H3); [lia|]. fold P in H1, H2, H3. unfold f, upto in H2. apply andb_true_iff in H2 as [H2 H4]. apply Nat.ltb_lt in H4.
    repeat split; auto. rewrite <- Hcnt; [assumption|]. lia. }
  destruct (Hnth i Hi) as (H1 & H2 & H3). exists (nth i P 0). split; [|auto].
  assert (HPl : i < length P) by (unfold P; rewrite poss_length; lia).
  unfold da_select. destruct (He i Hi) as [(front & Hb & H)|(o & Ho & H)].
  - rewrite (get_ok _ _ _ Hb). cbn [bind]. destruct (Z.ltb_spec (Z.of_nat front) 0); [lia|].
    destruct (H i HPl eq_refl) as (u & Hu & Eu). rewrite (get_ok _ _ _ Hu). cbn [bind]. rewrite Nat2Z.id, Eu.
    pose proof (Nat.div_mod i 32 ltac:(lia)) as E32. destruct (Nat.eqb_spec (i mod 32) 0) as [E0|Hne].
    + rewrite E0, Nat.add_0_r in E32. now rewrite <- E32.
    + destruct (Hnth (32 * (i / 32)) ltac:(lia)) as (H4 & H5 & H6).
      apply da_scan_ok; auto; [lia|apply (cnt_below _ _ _ _ H2 H3); lia|lia|].
      assert (nth i P 0 / 64 < length (v_words v)) by (apply Nat.div_lt_upper_bound; lia). lia.
  - rewrite (get_ok _ _ _ Ho). cbn [bind]. destruct (Z.ltb_spec (- Z.of_nat o - 1) 0); [|lia].
    replace (Z.to_nat (- (- Z.of_nat o - 1) - 1)) with o by lia. now apply get_ok, H.
Qed.

(** ** On lists of bits *)
Lemma gbit_cnt neg ws l p : repr ws l -> p <= length l -> cnt (gbit neg ws) p = rank (negb neg) l p.
Proof.
  intros Hr Hp. destruct neg; cbn [negb]; [rewrite rank_false|rewrite rank_true]; apply cnt_ext; intros j Hj; unfold gbit; rewrite (repr_bits _ _ Hr).
  - f_equal. apply nth_indep. lia.
  - reflexivity.
Qed.
Lemma darray_ok neg ws l : repr ws l -> exists d, da_build neg {| v_words := ws; v_size := length l |} = Ok d /\
  d_n d = count_occ Bool.bool_dec l (negb neg) /\
  forall k fuel, k < count_occ Bool.bool_dec l (negb neg) -> length ws < fuel ->
    exists p, da_select neg d {| v_words := ws; v_size := length l |} fuel k = Ok p /\ is_select (negb neg) l k p.
Proof.
  intros Hr. set (v := {| v_words := ws; v_size := length l |}). destruct (da_build_ok neg v) as (d & E & Hd); [apply Hr|]. exists d. split; [assumption|].
  pose proof (repr_fit _ _ (length l) Hr (le_n _)) as Hfit.
  assert (Hn : d_n d = count_occ Bool.bool_dec l (negb neg)).
  { rewrite (do_n _ _ _ Hd). cbn [v v_words v_size]. rewrite <- rank_count, <- (gbit_cnt neg ws) by (assumption || lia).
    replace (64 * length ws) with (length l + (64 * length ws - length l)) by lia. rewrite cnt_app.
    rewrite (cnt_zero (fun x => upto neg ws (length l) (length l + x))).
    - rewrite Nat.add_0_r. apply cnt_ext. intros j Hj. unfold upto. destruct (Nat.ltb_spec j (length l)); [apply andb_true_r|lia].
    - intros j _. unfold upto. destruct (Nat.ltb_spec (length l + j) (length l)); [lia|apply andb_false_r]. }
  split; [assumption|]. intros k fuel Hk Hf. destruct (da_select_ok neg v d k fuel) as (p & Ep & Hp & Hb & Hc); auto; [apply Hr|lia|].
  exists p. split; [assumption|]. cbn [v v_words v_size] in *. split.
  - rewrite (nth_error_nth' _ false) by assumption. f_equal. unfold gbit in Hb. rewrite (repr_bits _ _ Hr) in Hb. destruct neg; cbn [negb] in *; [now apply negb_true_iff in Hb|assumption].
  - rewrite <- (gbit_cnt neg ws) by (assumption || lia). assumption.
Qed.
