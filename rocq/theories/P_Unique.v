(** Proofs about M_TopK: unsorted_list::topk with unique results, on ranges longer than k. *)
From Coq Require Import Permutation Sorted.
From Verif Require Import Base M_Heap S_Heap P_Heap M_TopK S_TopK P_TopK P_TopKDistinct.
Local Open Scope nat_scope.

Section Unique.
  Variable acc : nat -> res nat.
  Variable l : list nat.
  Variable rmq : nat -> nat -> res nat.
  Hypothesis Hacc : forall i, i < length l -> acc i = Ok (nth i l 0).
  Hypothesis Hrmq : rmq_ok l rmq.
  Variable std : heap_ops scored_range.
  Hypothesis Hstd : std_heap std.
  Variables k rb re n0 : nat.
  Hypothesis Hkn : k <= n0.
  Hypothesis Hre : re <= length l.
  Let vals := flat_map (sr_vals l).

  Definition uq_inv (s : list scored_range * list nat * nat) : Prop :=
    let '(q, topk, i) := s in dstate n0 k (segment l rb re) topk i (vals q) /\ Forall (wf_range l) q /\ is_heap sr_min_val q.

  Lemma uq_step_ok s : uq_inv s ->
    match unsorted_step acc (length l) rmq std k true s with
    | Ok (inl s') => uq_inv s' /\ length (vals (fst (fst s'))) < length (vals (fst (fst s)))
    | Ok (inr r) => dpost n0 k (segment l rb re) r
    | _ => False
    end.
  Proof using Hacc Hrmq Hstd Hkn Hre.
    destruct s as [[q topk] i]. intros (Hd & Hwf & Hh). cbn [unsorted_step fst snd].
    destruct q as [|e q]; [now apply dstate_empty|].
    pose proof (is_heap_top sr_min_val e q Hh) as [_ Hmin].
    assert (Hwe : wf_range l e) by (inversion Hwf; assumption). assert (Hwq : Forall (wf_range l) q) by (inversion Hwf; assumption).
    set (v := sr_min_val e) in *.
    assert (Hv : forall y, In y (vals (e :: q)) -> v <= y).
    { intros y Hy. apply in_flat_map in Hy. destruct Hy as (f & Hf & Hy). transitivity (sr_min_val f); [now apply Hmin|]. apply (wf_range_min acc l Hacc 0 0 0 (Nat.le_refl 0) (Nat.le_0_l _)); [|exact Hy].
      rewrite Forall_forall in Hwf. now apply Hwf. }
    assert (Hein : sr_begin e <= sr_min_pos e <= sr_end e /\ sr_end e < length l) by (destruct Hwe as ((A & _) & B & _); auto).
    destruct (left_range_ok acc l rmq Hacc Hrmq (sr_begin e) (sr_min_pos e)) as (lo & El & Hl); [lia|lia|].
    destruct (right_range_ok acc l rmq Hacc Hrmq (sr_end e) (sr_min_pos e)) as (ro & Er & Hr); [lia|lia|].
    pose proof (wf_range_split acc l Hacc 0 0 0 (Nat.le_refl 0) (Nat.le_0_l _) e lo ro Hwe Hl Hr) as Hsplit. fold v in Hsplit.
    set (R := osr_vals l lo ++ osr_vals l ro ++ vals q).
    assert (HR : Permutation (vals (e :: q)) (v :: R)).
    { unfold vals. cbn [flat_map]. rewrite Hsplit. unfold R. rewrite <- app_assoc. cbn [app]. symmetry. apply Permutation_middle. }
    destruct (heap_pop_ok sr_min_val std Hstd e q (heap_below _ _ Hh)) as (q1 & E1 & H1 & P1).
    assert (Hwq1 : Forall (wf_range l) q1) by (now rewrite P1).
    destruct (opt_push_ok l std Hstd q1 lo H1 Hwq1) as (A1 & A2 & A3); [destruct lo; [apply Hl|exact I]|].
    destruct (opt_push_ok l std Hstd (opt_push std q1 lo) ro A1 A2) as (B1 & B2 & B3); [destruct ro; [apply Hr|exact I]|].
    set (q' := opt_push std (opt_push std q1 lo) ro) in *.
    assert (HPR : Permutation (vals q') R).
    { unfold vals. rewrite B3, A3, (Permutation_flat_map (sr_vals l) P1). unfold R, vals. rewrite !app_assoc. apply Permutation_app_tail. apply Permutation_app_comm. }
    assert (Hlen : length (vals q') < length (vals (e :: q))) by (rewrite (Permutation_length HPR), (Permutation_length HR); cbn; lia).
    destruct (dstate_emit n0 k (segment l rb re) Hkn topk i (vals (e :: q)) (vals q') v Hd) as (present & Ep & Hp).
    - rewrite HR. now left.
    - exact Hv.
    - intros x Hx. rewrite HR. right. now rewrite <- HPR.
    - intros x Hx. rewrite HR in Hx. destruct Hx as [<-|Hx]; [now left|]. right. now rewrite HPR.
    - rewrite Ep. cbn [bind]. destruct present.
      + cbn [bind negb andb]. rewrite E1. cbn [bind]. rewrite El. cbn [bind]. rewrite Er. cbn [bind fst]. split; [|exact Hlen]. split; [exact Hp|]. split; assumption.
      + destruct Hp as [-> Hp]. cbn [bind negb andb]. destruct (i + 1 =? k); [exact Hp|].
        rewrite E1. cbn [bind]. rewrite El. cbn [bind]. rewrite Er. cbn [bind fst]. split; [|exact Hlen]. split; [exact Hp|]. split; assumption.
  Qed.

  Lemma unique_topk_ok fuel topk : rb + k < re -> 1 <= k -> length topk = n0 -> re - rb + 1 < fuel ->
    exists r topk', unsorted_topk acc (length l) rmq std k true fuel rb re topk = Ok (r, topk') /\
      length topk' = n0 /\ r <= k /\ k_smallest_distinct k (segment l rb re) (firstn r topk').
  Proof using Hacc Hrmq Hstd Hkn Hre.
    intros Hr Hk L Hf. unfold unsorted_topk. destruct (Nat.leb_spec (re - rb) k) as [C|C]; [lia|].
    destruct (whole_range_ok acc l rmq Hacc Hrmq rb re) as (s & E & Hs & Eb & Ee); [lia|lia|]. rewrite E. cbn [bind].
    destruct (heap_push_ok sr_min_val std Hstd [] s (heap_nil _)) as [A B].
    assert (Ev : Permutation (vals (heap_push sr_min_val std [] s)) (segment l rb re)).
    { unfold vals. rewrite (Permutation_flat_map (sr_vals l) B). cbn [flat_map]. rewrite app_nil_r. unfold sr_vals. now rewrite Eb, Ee. }
    destruct (loop_ok (unsorted_step acc (length l) rmq std k true) uq_inv (fun s => length (vals (fst (fst s)))) (dpost n0 k (segment l rb re))) with
      (fuel := fuel) (s := (heap_push sr_min_val std [] s, topk, 0)) as (r & Er & Hpost).
    - intros s' Hs'. exact (uq_step_ok s' Hs').
    - split; [|split; [rewrite B; now constructor|exact A]]. split; [exact L|]. split; [lia|]. cbn [firstn]. split; [constructor|]. split; [|intros x y []].
      intros x. rewrite Ev. split; [now right|]. intros [[]|H]; exact H.
    - cbn [fst]. rewrite (Permutation_length Ev), segment_length by lia. lia.
    - destruct r as [r t]. exists r, t. split; [exact Er|]. exact Hpost.
  Qed.
End Unique.
