(** Specification: states of an index between queries, requests and their answers. *)
From Verif Require Import Base S_Order S_Parse M_Auto M_Auto1 S_Collection.

(** The result pool: 15 scores and 15 * 128 characters, whatever earlier queries left in it. *)
Definition pool_ok (p : pool) : Prop := length (p_scores p) = MAX_K /\ length (p_data p) = POOL_SIZE.

(** The static buffers of the dictionary: 256 bytes each, with any contents. *)
Definition bufs_ok (b : dict_bufs) : Prop :=
  length (db_locate b) = 256 /\ length (db_left b) = 256 /\ length (db_right b) = 256.

Definition state1_ok (s : state1) : Prop := pool_ok (s1_pool s) /\ bufs_ok (s1_bufs s).

(** The answer to a request. *)
Definition answer_to (c : collection) (r : request) (out : list (nat * list N)) : Prop :=
  exists ts last, query_split (rq_text r) ts last /\
    topk_answer c (if rq_conj r then conj_match c ts last else prefix_match ts last) (rq_k r) out.

(** Requests the positive theorems cover: k between 1 and 15; the last token does not
    strictly extend to the first term (F1); the answer fits the result buffer (F13). *)
Definition request_ok (c : collection) (r : request) : Prop :=
  1 <= rq_k r <= MAX_K /\
  (forall ts last, query_split (rq_text r) ts last -> first_term_ok c last) /\
  (forall out, answer_to c r out -> fits_pool out).
