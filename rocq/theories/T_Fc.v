(** C09, C10, C11: the term dictionary. *)
From Verif Require Import Base S_Order S_Vocab M_Fc P_Fc.

(** C09, for every BucketSize and the vocabularies whose size is not a multiple of BucketSize + 1. [out] is the
    caller's memory and [base] the position of the output pointer; bytes before
    it are untouched. Missing: those multiples, where the statement is false. *)
Theorem C09_extract_partial {bucket : bucket_size} : forall terms,
  wf_vocab terms -> not_multiple (length terms) ->
  exists d, fc_build terms = Ok d /\
    forall i t, nth_error terms i = Some t ->
    forall out base, base + 256 <= length out ->
    exists out', fc_extract d (i + 1) out base = Ok (length t, out') /\
      length out' = length out /\ firstn base out' = firstn base out /\
      firstn (length t) (skipn base out') = t.
Proof. exact fc_dictionary_extract. Qed.
Print Assumptions C09_extract_partial.

(** The full C09 is false: with 17 terms the last 16 are not stored
    and extracting one of them reads past the end of the bucket data (F23). *)
Theorem C09_extract_refuted :
  exists terms d i t, wf_vocab terms /\ fc_build terms = Ok d /\ nth_error terms i = Some t /\
    fc_extract d (i + 1) (repeat 0%N 256) 0 = UB.
Proof. exact extract_multiple_of_17_wrong. Qed.
Print Assumptions C09_extract_refuted.

(** C10: locate is exact, whatever an earlier call left in its static buffer. *)
Theorem C10_locate_partial {bucket : bucket_size} : forall terms,
  wf_vocab terms -> not_multiple (length terms) ->
  exists d, fc_build terms = Ok d /\
    forall t dec, length dec = 256 ->
    exists r dec', fc_locate d t dec = Ok (r, dec') /\ length dec' = 256 /\
      forall id, r = Some id <-> (1 <= id /\ nth_error terms (id - 1) = Some t).
Proof. exact fc_dictionary_locate. Qed.
Print Assumptions C10_locate_partial.

Theorem C10_locate_refuted :
  exists terms d t, wf_vocab terms /\ fc_build terms = Ok d /\ In t terms /\
    exists dec', fc_locate d t (repeat 0%N 256) = Ok (None, dec').
Proof. exact locate_multiple_of_17_wrong. Qed.
Print Assumptions C10_locate_refuted.

(** C11: locate_prefix is exact unless the first term strictly extends p. *)
Theorem C11_locate_prefix_partial {bucket : bucket_size} : forall terms,
  wf_vocab terms -> not_multiple (length terms) ->
  exists d, fc_build terms = Ok d /\
    forall p dl dr, length dl = 256 -> length dr = 256 ->
    (p <> [] -> is_prefix p (nth 0 terms []) -> nth 0 terms [] = p) ->
    exists r dl' dr', fc_locate_prefix d p dl dr = Ok (r, dl', dr') /\
      length dl' = 256 /\ length dr' = 256 /\
      match r with
      | Some (a, b) => exact_range (length terms) (fun i => is_prefix p (nth i terms [])) a b
      | None => forall i, i < length terms -> ~ is_prefix p (nth i terms [])
      end.
Proof. exact fc_dictionary_locate_prefix. Qed.
Print Assumptions C11_locate_prefix_partial.

(** For every prefix: the range found is exactly that of the terms starting with p, of which the first term of the
    vocabulary is taken only for the empty prefix and for p equal to it (F1). *)
Theorem C11_locate_prefix_exact_partial {bucket : bucket_size} : forall terms,
  wf_vocab terms -> not_multiple (length terms) ->
  exists d, fc_build terms = Ok d /\
    forall p dl dr, length dl = 256 -> length dr = 256 ->
    exists r dl' dr', fc_locate_prefix d p dl dr = Ok (r, dl', dr') /\
      length dl' = 256 /\ length dr' = 256 /\
      match r with
      | Some (a, b) => exact_range (length terms) (fun i => found_by (nth 0 terms []) p (nth i terms [])) a b
      | None => forall i, i < length terms -> ~ found_by (nth 0 terms []) p (nth i terms [])
      end.
Proof. exact fc_dictionary_locate_prefix_exact. Qed.
Print Assumptions C11_locate_prefix_exact_partial.

(** F1: the first term of the vocabulary is never found by a strict prefix. *)
Theorem C11_locate_prefix_refuted :
  exists terms d p, wf_vocab terms /\ not_multiple_of_17 (length terms) /\ nul_free p /\
    fc_build terms = Ok d /\
    is_prefix p (nth 0 terms []) /\ is_prefix p (nth 1 terms []) /\
    exists dl' dr', fc_locate_prefix d p (repeat 0%N 256) (repeat 0%N 256) = Ok (Some (1, 1), dl', dr').
Proof. exact locate_prefix_first_wrong. Qed.
Print Assumptions C11_locate_prefix_refuted.

Theorem C11_locate_prefix_single_refuted :
  exists terms d p, wf_vocab terms /\ not_multiple_of_17 (length terms) /\ nul_free p /\
    fc_build terms = Ok d /\ is_prefix p (nth 0 terms []) /\
    exists dl' dr', fc_locate_prefix d p (repeat 0%N 256) (repeat 0%N 256) = Ok (None, dl', dr').
Proof. exact locate_prefix_only_term_wrong. Qed.
Print Assumptions C11_locate_prefix_single_refuted.

(** Non-vacuity: a vocabulary of 20 terms (two buckets) satisfies all hypotheses,
    and a prefix spanning both buckets is located. *)
Definition vocab20 : list (list N) :=
  map (fun i => [98%N; N.of_nat (i + 65)]) (seq 0 19) ++ [[99%N]].
Example C09_C11_nonvacuous :
  wf_vocab vocab20 /\ not_multiple_of_17 (length vocab20) /\ nul_free [98%N; 70%N] /\
  ~ is_prefix [98%N; 70%N] (nth 0 vocab20 []).
Proof.
  split; [apply wf_vocabb_wf; vm_compute; reflexivity|]. split; [vm_compute; discriminate|].
  split; [repeat constructor|]. intros [t Ht]. vm_compute in Ht. discriminate.
Qed.
