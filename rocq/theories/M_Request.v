(** Model of src/web_server.cpp: the variables of a request. No proofs. *)
From Verif Require Import Base M_Fc M_Trie M_Containers M_Auto M_Auto1 M_Web.
Local Open Scope nat_scope.

(** web_server.cpp:43-54 mg_get_http_var(&hm->query_string, name, buf, size): [v]: the decoded value, [None] if the variable is absent. The
    length of the value, or a negative number if there is none or if it does not fit the buffer with its terminating NUL; both leave the
    default. (mongoose is not part of the repository; its documented interface is assumed. Decoding of %XX and + is mongoose's.) *)
Definition http_var (size : nat) (v : option (list N)) : list N :=
  match v with
  | Some s => if length s <? size then s else []
  | None => []
  end.

(** web_server.cpp:36-86 ev_handler for /topcomp, with the sizes of query_buf and k_buf (lines 43, 49). *)
Definition serve (K : containers) (x : index1 K) (fuel : nat) (q k : option (list N)) (s : state1) : res (list N * state1) :=
  topcomp K x fuel (http_var MAX_CHARS q) (http_var 16 k) s.

(** web_server.cpp:112: the loop over the requests: the responses, in order. *)
Fixpoint serve_all (K : containers) (x : index1 K) (fuel : nat) (rs : list (option (list N) * option (list N))) (s : state1) : res (list (list N) * state1) :=
  match rs with
  | [] => Ok ([], s)
  | (q, k) :: rs' =>
      do (data, s) <- serve K x fuel q k s;
      do (datas, s) <- serve_all K x fuel rs' s;
      Ok (data :: datas, s)
  end.
