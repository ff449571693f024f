(** C33: compact_forward_index. *)
From Verif Require Import Base M_Containers S_Containers P_Containers P_ListContainers.
Local Open Scope nat_scope.

(** An index built from any lists of ids up to [T] answers containment exactly, and its iterators read the lists back. *)
Theorem C33_forward_partial : forall K T lists,
  containers_ok K -> (1 <= N.of_nat T < 4294967296)%N -> Forall (Forall (fun x => (x <= N.of_nat T)%N)) lists ->
  (N.of_nat (length (concat lists)) < 18446744073709551616)%N ->
  exists f, fwd_build K T lists = Ok f /\
    forall d l, nth_error lists d = Some l ->
      (exists pos, fwd_iterator f d = Ok (pos, length l) /\ forall j, j < length l -> fw_data f (pos + j) = Ok (nth j l 0%N)) /\
      (forall a b, exists r, fwd_intersects f d a b = Ok r /\
         (r = true <-> exists x, In x l /\ (N.of_nat a <= x <= N.of_nat b)%N)).
Proof.
  intros K T lists HK HT Hl Htot. destruct (fwd_build_ok K HK T lists HT Hl Htot) as (f & E & H). exists f. split; [exact E|].
  intros d l Hd. split; [exact (H d l Hd)|]. intros a b. exact (fwd_intersects_ok lists f d l a b H Hd).
Qed.
Print Assumptions C33_forward_partial.

Example C33_nonvacuous :
  containers_ok list_containers /\
  exists f, fwd_build list_containers 5 [[1; 4]; []; [5; 2; 2]]%N = Ok f /\
    fwd_intersects f 2 3 4 = Ok false /\ fwd_intersects f 2 2 4 = Ok true /\ fwd_intersects f 1 0 9 = Ok false.
Proof. split; [exact list_containers_ok|]. eexists. split; [vm_compute; reflexivity|]. repeat split; vm_compute; reflexivity. Qed.
