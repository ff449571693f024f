(** C09, C10, C11, C14, C15, C16, C34 for dictionaries of every size and every BucketSize: when the number of strings is a multiple of
    BucketSize + 1 the last BucketSize are not stored (F23), and everything else works as if they had not been given. *)
From Verif Require Import Base S_Order S_Vocab S_Completions M_Fc M_IntFc P_Fc P_IntFc P_Kept.

(** extract gives every stored term back and is undefined for every other one. *)
Theorem C09_extract_exact_partial {bucket : bucket_size} : forall terms, wf_vocab terms ->
  exists d, fc_build terms = Ok d /\
    (forall i t, nth_error (stored terms) i = Some t -> forall out base, base + 256 <= length out ->
       exists out', fc_extract d (i + 1) out base = Ok (length t, out') /\
         length out' = length out /\ firstn base out' = firstn base out /\ firstn (length t) (skipn base out') = t) /\
    (forall i, length (stored terms) <= i < length terms -> forall out base, fc_extract d (i + 1) out base = UB).
Proof. exact fc_extract_any. Qed.
Print Assumptions C09_extract_exact_partial.

(** locate finds exactly the stored terms. *)
Theorem C10_locate_exact_partial {bucket : bucket_size} : forall terms, wf_vocab terms ->
  exists d, fc_build terms = Ok d /\
    forall t dec, length dec = 256 ->
    exists r dec', fc_locate d t dec = Ok (r, dec') /\ length dec' = 256 /\
      forall id, r = Some id <-> (1 <= id /\ nth_error (stored terms) (id - 1) = Some t).
Proof. exact fc_locate_any. Qed.
Print Assumptions C10_locate_exact_partial.

(** locate_prefix finds exactly the stored terms that start with p (except for the first one, F1); the empty prefix gets
    the ids of all the terms, stored or not. *)
Theorem C11_locate_prefix_any_size_partial {bucket : bucket_size} : forall terms, wf_vocab terms ->
  exists d, fc_build terms = Ok d /\
    forall p dl dr, length dl = 256 -> length dr = 256 ->
    exists r dl' dr', fc_locate_prefix d p dl dr = Ok (r, dl', dr') /\
      length dl' = 256 /\ length dr' = 256 /\
      (p = [] -> r = Some (0, length terms - 1)) /\
      (p <> [] -> match r with
        | Some (a, b) => exact_range (length (stored terms)) (fun i => found_by (nth 0 terms []) p (nth i terms [])) a b
        | None => forall i, i < length (stored terms) -> ~ found_by (nth 0 terms []) p (nth i terms [])
        end).
Proof. exact fc_locate_prefix_any. Qed.
Print Assumptions C11_locate_prefix_any_size_partial.

(** extract gives every stored completion back and is undefined for every other one. *)
Theorem C14_extract_exact_partial {bucket : bucket_size} : forall cs, wf_completions cs ->
  exists d, ifc_build (map terminated cs) = Ok d /\
    (forall i c, nth_error (stored cs) i = Some c -> forall out, 128 <= length out ->
       exists out', ifc_extract d i out = Ok (length c, out') /\ length out' = length out /\ firstn (length c) out' = c) /\
    (forall i, length (stored cs) <= i < length cs -> forall out, ifc_extract d i out = UB).
Proof. exact ifc_extract_any. Qed.
Print Assumptions C14_extract_exact_partial.

(** locate_prefix finds exactly the stored continuations (except for the first completion, F2). *)
Theorem C15_locate_prefix_any_size_partial {bucket : bucket_size} : forall cs, wf_completions cs ->
  exists d, ifc_build (map terminated cs) = Ok d /\
    forall prefix a b dl dr,
    (a <= b < 4294967296)%N -> length dl = 128 -> length dr = 128 ->
    exists r prefix' dl' dr',
      ifc_locate_prefix d prefix a b dl dr = Ok (r, prefix', dl', dr') /\
      length dl' = 128 /\ length dr' = 128 /\
      (r <> None \/ a <> b -> prefix' = prefix) /\ (r = None /\ a = b -> prefix' = prefix ++ [a]) /\
      match r with
      | Some (i, j) => exact_range_excl (length (stored cs)) (fun k => continues_found (nth 0 cs []) prefix a b (nth k cs [])) i j
      | None => forall k, k < length (stored cs) -> ~ continues_found (nth 0 cs []) prefix a b (nth k cs [])
      end.
Proof. exact ifc_locate_prefix_any. Qed.
Print Assumptions C15_locate_prefix_any_size_partial.

(** locate of a stored completion gives its number. For any other sequence [c], which would be inserted as number [i]:
    "not found" if number [i] shares its bucket with smaller completions, or if [c] is smaller than all completions and
    there are two of them; otherwise the loop over the bucket of [c] runs to its end, which is undefined (F4). *)
Theorem C16_locate_exact_partial {bucket : bucket_size} : forall cs, wf_completions cs ->
  exists d, ifc_build (map terminated cs) = Ok d /\
    forall c dec, length dec = 128 ->
    (forall i, nth_error (stored cs) i = Some c ->
       exists dec', ifc_locate d c dec = Ok (Some i, dec') /\ length dec' = 128) /\
    (forall i, falls_at (stored cs) c i -> i mod (BUCKET + 1) <> 0 /\ i < length (stored cs) \/ i = 0 /\ 1 < length (stored cs) ->
       exists dec', ifc_locate d c dec = Ok (None, dec') /\ length dec' = 128) /\
    (forall i, falls_at (stored cs) c i -> i mod (BUCKET + 1) = 0 /\ i <> 0 \/ i = length (stored cs) \/ length (stored cs) = 1 ->
       ifc_locate d c dec = UB).
Proof. exact ifc_locate_any. Qed.
Print Assumptions C16_locate_exact_partial.

(** These cases are all there are. *)
Theorem C16_locate_cases {bucket : bucket_size} : forall cs c, wf_completions cs ->
  (exists i, nth_error (stored cs) i = Some c) \/
  exists i, falls_at (stored cs) c i /\
    ((i mod (BUCKET + 1) <> 0 /\ i < length (stored cs) \/ i = 0 /\ 1 < length (stored cs)) \/
     (i mod (BUCKET + 1) = 0 /\ i <> 0 \/ i = length (stored cs) \/ length (stored cs) = 1)).
Proof.
  intros cs c W. destruct (sorted_position (stored cs) c) as [H|[i H]]; [apply stored_completions, W|now left|right].
  exists i. split; [exact H|]. destruct H as [H _].
  pose proof (stored_nonempty cs (proj1 (proj2 W))). assert (0 < length (stored cs)) by (destruct (stored cs); [congruence|cbn; lia]).
  destruct (Nat.eq_dec (i mod (BUCKET + 1)) 0); lia.
Qed.
Print Assumptions C16_locate_cases.

(** The map from doc ids to completions is the inverse of the list of the doc ids of the stored completions. *)
Theorem C34_docid_to_lexid_exact_partial {bucket : bucket_size} : forall universe docs,
  NoDup docs -> (forall x, In x docs -> x < universe) ->
  exists m, ifc_docid_to_lexid universe docs = Ok m /\ length m = universe /\
    forall doc i, nth_error m doc = Some (Some i) <-> nth_error (stored docs) i = Some doc.
Proof. exact docid_to_lexid_any. Qed.
Print Assumptions C34_docid_to_lexid_exact_partial.

(** 34 strings, of which 18 are stored; the second bucket keeps its header. *)
Definition vocab34 : list (list N) := map (fun i => [98%N; N.of_nat (i + 65)]) (seq 0 34).
Definition completions34 : list (list N) := map (fun i => [N.of_nat (1 + i / 3); N.of_nat (2 + i mod 3)]) (seq 0 34).
Example stored_nonvacuous :
  wf_vocab vocab34 /\ length (stored vocab34) = 18 /\ nth_error (stored vocab34) 17 = Some [98%N; 82%N] /\
  wf_completions completions34 /\ length (stored completions34) = 18 /\
  falls_at (stored completions34) [1%N; 3%N; 5%N] 2 /\ falls_at (stored completions34) [100%N] 18.
Proof.
  split; [apply wf_vocabb_wf; vm_compute; reflexivity|]. split; [reflexivity|]. split; [reflexivity|].
  split; [apply wf_completionsb_wf; vm_compute; reflexivity|]. split; [reflexivity|].
  assert (H : forall c i, (i <=? length (stored completions34)) && forallb (fun j => if j <? i then lex_ltb (nth j (stored completions34) []) c
    else lex_ltb c (nth j (stored completions34) [])) (seq 0 (length (stored completions34))) = true -> falls_at (stored completions34) c i).
  { intros c i H. apply andb_true_iff in H as [H1 H2]. rewrite forallb_forall in H2.
    split; [now apply Nat.leb_le|]. split; intros j Hj; (assert (Hin : In j (seq 0 (length (stored completions34)))) by (apply in_seq; apply Nat.leb_le in H1; lia));
      specialize (H2 j Hin); cbv beta in H2; destruct (Nat.ltb_spec j i); try lia; now apply lex_ltb_lt. }
  split; apply H; vm_compute; reflexivity.
Qed.

(** BucketSize 4 (benchmark_fc_dictionary.cpp): of 10 strings the first 6 are stored; the sixth is the header of the second bucket. *)
Definition bucket4 : bucket_size := {| BUCKET := 4; bucket_pos := Nat.lt_0_succ 3 |}.
Definition vocab10 : list (list N) := map (fun i => [98%N; N.of_nat (i + 65)]) (seq 0 10).
Example bucket_size_nonvacuous :
  wf_vocab vocab10 /\ length (@stored bucket4 _ vocab10) = 6 /\ @not_multiple bucket4 9 /\
  (do d <- @fc_build bucket4 vocab10;
   do (l1, o1) <- @fc_extract bucket4 d 6 (repeat 0%N 256) 0; do (r, _) <- @fc_locate bucket4 d [98%N; 67%N] (repeat 0%N 256);
   Ok (firstn l1 o1, r, @fc_extract bucket4 d 7 (repeat 0%N 256) 0)) = Ok ([98%N; 70%N], Some 3, UB).
Proof. split; [apply wf_vocabb_wf; vm_compute; reflexivity|]. split; [reflexivity|]. split; [discriminate|]. vm_compute. reflexivity. Qed.
