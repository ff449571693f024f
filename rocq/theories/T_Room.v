(** Theorems about the room for answers in the result buffer (F13). *)
From Verif Require Import Base S_Order S_Vocab M_Fc P_Fc P_Room M_Auto M_Auto1 S_Collection S_Index S_Room P_Collection P_ListContainers T_Auto1.
Local Open Scope nat_scope.

(** Extracting a stored term succeeds exactly if the buffer has room for [reach] bytes; otherwise it writes outside. *)
Theorem C09_extract_exact_partial {bucket : bucket_size} : forall terms, wf_vocab terms -> exists d, fc_build terms = Ok d /\
  forall i t, nth_error (stored terms) i = Some t -> forall out base,
   (base + reach terms i <= length out /\
    exists out', fc_extract d (i + 1) out base = Ok (length t, out') /\
      length out' = length out /\ firstn base out' = firstn base out /\ firstn (length t) (skipn base out') = t) \/
   (~ base + reach terms i <= length out /\ fc_extract d (i + 1) out base = UB).
Proof. exact fc_extract_exact. Qed.
Print Assumptions C09_extract_exact_partial.

(** The room needed is at least the length of the term and at most 256 bytes. *)
Theorem C09_reach {bucket : bucket_size} : forall terms i, wf_vocab terms -> i < length terms -> length (nth i terms []) <= reach terms i <= 256.
Proof. intros terms i (_ & _ & H) Hi. split; [now apply reach_ge|now apply reach_le]. Qed.
Print Assumptions C09_reach.

(** A vocabulary, a buffer with exactly enough room for "aab" and one that is a byte too short, although it has 129 bytes. *)
Definition vocab3 : list (list N) := [[97]; [97; 97]; [97; 97; 98]]%N.
Example reach_nonvacuous :
  wf_vocab vocab3 /\ reach vocab3 0 = 1 /\ reach vocab3 1 = 129 /\ reach vocab3 2 = 130 /\
  (do d <- fc_build vocab3; do r <- fc_extract d 3 (repeat 0%N 130) 0; Ok (fst r, firstn 3 (snd r))) = Ok (3, [97; 97; 98]%N) /\
  (do d <- fc_build vocab3; fc_extract d 3 (repeat 0%N 129) 0) = UB.
Proof. split; [apply wf_vocabb_wf; reflexivity|]. vm_compute. repeat split. Qed.

(** F13, more precisely: with 15 completions of 188 characters, 10 answers have 1880 characters and the buffer 1920
    bytes; still, reporting them writes outside. 9 answers can be reported, although [fits_pool] does not hold. *)
Theorem C38_room_refuted :
  wf_collection coll_long /\ sizes_ok coll_long /\ some_doc_positive coll_long /\ some_term_not_in_doc0 coll_long /\
  (let answer k := map (fun i => (i, text coll_long (nth i (comps coll_long) []))) (seq 0 k) in
   let ask k := run1 coll_long [{| rq_conj := false; rq_k := k; rq_text := [] |}] in
   length (concat (map snd (answer 10))) = 1880 /\ POOL_SIZE = 1920 /\ ask 10 = UB /\
   ask 9 = Ok [answer 9] /\ ~ fits_pool (answer 9)).
Proof.
  destruct C38_pool_refuted as (A1 & A2 & A3 & A4 & _). do 4 (split; [assumption|]). cbv zeta.
  split; [vm_compute; reflexivity|]. split; [reflexivity|]. split; [vm_compute; reflexivity|]. split; [vm_compute; reflexivity|].
  intros H. apply Nat.leb_le in H. vm_compute in H. discriminate.
Qed.
Print Assumptions C38_room_refuted.
