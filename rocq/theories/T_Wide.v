(** C09 with the 32-bit pointers of the dictionary. *)
From Verif Require Import Base S_Order S_Vocab S_Wide M_Fc M_Wide P_Wide.

(** Below 4 GiB (every term once, with two length bytes) the 32-bit pointers lose nothing: extract is exact. Missing: multiples of 17
    terms (F23) and larger dictionaries, where the statement is false. *)
Theorem C09_wide_partial : forall terms, wf_vocab terms -> not_multiple (length terms) -> Forall (Forall (fun x => (x < 256)%N)) terms ->
  (N.of_nat (length (concat terms) + 2 * length terms) < 4294967296)%N ->
  exists d, fc_build32 terms = Ok d /\
    forall i t, nth_error terms i = Some t ->
    forall out base, base + 256 <= length out ->
    exists out', fc_extract32 d (i + 1) out base = Ok (length t, out') /\
      length out' = length out /\ firstn base out' = firstn base out /\
      firstn (length t) (skipn base out') = t.
Proof. exact small_extract. Qed.
Print Assumptions C09_wide_partial.

(** F54: in every vocabulary whose headers (the first terms of the buckets) take 4 GiB or more there is a term that cannot be
    extracted, whatever the output buffer: the header of its bucket ends before it begins. For every BucketSize. *)
Theorem C09_wide_refuted {bucket : bucket_size} : forall terms, wf_vocab terms ->
  (4294967296 <= N.of_nat (length (concat (firsts terms))))%N ->
  exists d i t, fc_build32 terms = Ok d /\ nth_error terms i = Some t /\
    forall out base, fc_extract32 d (i + 1) out base = UB.
Proof. exact wide_wrong. Qed.
Print Assumptions C09_wide_refuted.

(** There is such a vocabulary of fewer than 2^30 - 1 terms, not a multiple of 17, of bytes. *)
Theorem C09_wide_nonvacuous : exists terms,
  wf_vocab terms /\ not_multiple_of_17 (length terms) /\ Forall (Forall (fun x => (x < 256)%N)) terms /\
  (N.of_nat (length terms) < 2 ^ 30 - 1)%N /\ (4294967296 <= N.of_nat (length (concat (firsts terms))))%N.
Proof.
  exists huge. split; [exact huge_wf|]. split; [exact huge_not17|]. split; [exact huge_bytes|]. split; [rewrite huge_len; reflexivity|exact huge_over].
Qed.
Print Assumptions C09_wide_nonvacuous.

Example C09_wide_small : exists d, fc_build32 [[97; 98]; [97; 98; 99]; [98]]%N = Ok d /\ fc_extract32 d 2 (repeat 0%N 256) 0 = fc_extract d 2 (repeat 0%N 256) 0.
Proof. eexists. split; reflexivity. Qed.
