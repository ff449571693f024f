(** Specification: states of the indexes of types 2, 3 and 4 between queries, and the requests their positive theorems cover. *)
From Verif Require Import Base S_Order S_Parse M_Auto M_Auto2 S_Collection S_Index.

(** Pool and static buffers as for type 1; the static buffers of the integer dictionary: 128 ids each; the set of 15
    completions of 128 ids each and their sizes; with any contents. *)
Definition state2_ok (s : state2) : Prop :=
  pool_ok (s2_pool s) /\ bufs_ok (s2_bufs s) /\ length (s2_left s) = 128 /\ length (s2_right s) = 128 /\
  length (s2_comps s) = MAX_K /\ Forall (fun b => length b = 128) (s2_comps s) /\ length (s2_sizes s) = MAX_K.

(** As [request_ok]; prefix searches must not concern the first completion in the cases of finding F2. *)
Definition request_ok2 (c : collection) (r : request) : Prop :=
  request_ok c r /\
  (rq_conj r = false -> forall ts last, query_split (rq_text r) ts last -> first_completion_ok c ts last).
