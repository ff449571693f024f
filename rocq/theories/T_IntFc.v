(** C14, C15, C16 and the docid/lexid part of C34: the dictionary of completions. *)
From Verif Require Import Base S_Order S_Vocab S_Completions M_Fc M_IntFc P_IntFc.

(** C14, for numbers of completions that are not a multiple of 17. [out] is the
    caller's vector (at least 128 ids); its first ids become the completion. *)
Theorem C14_extract_partial {bucket : bucket_size} : forall cs,
  wf_completions cs -> not_multiple (length cs) ->
  exists d, ifc_build (map terminated cs) = Ok d /\
    forall i c, nth_error cs i = Some c ->
    forall out, 128 <= length out ->
    exists out', ifc_extract d i out = Ok (length c, out') /\
      length out' = length out /\ firstn (length c) out' = c.
Proof.
  intros cs W H17. destruct (ifc_build_layout cs W) as (d & E & L). exists d. split; [exact E|].
  intros i c Hi out Hout. apply (nth_error_nth_iff cs i []) in Hi as [Hi <-].
  exact (ifc_extract_ok d cs i out L W H17 Hi Hout).
Qed.
Print Assumptions C14_extract_partial.

(** The full C14 is false for 17 completions: the last 16 are not stored (F23). *)
Theorem C14_extract_refuted :
  exists cs d i c, wf_completions cs /\ ifc_build (map terminated cs) = Ok d /\ nth_error cs i = Some c /\
    ifc_extract d i (repeat 0%N 128) = UB.
Proof.
  exists (map (fun i => [N.of_nat i]) (seq 1 17)). eexists. exists 1, [2%N].
  split; [apply wf_completionsb_wf; vm_compute; reflexivity|].
  split; [vm_compute; reflexivity|]. split; [reflexivity|]. vm_compute. reflexivity.
Qed.
Print Assumptions C14_extract_refuted.

(** C15: locate_prefix is exact unless the first completion lies in the range
    without being equal to prefix ++ [a] (F2); the prefix is given back unchanged
    except when there is no match and a = b (F3). The static buffers are arbitrary. *)
Theorem C15_locate_prefix_partial {bucket : bucket_size} : forall cs,
  wf_completions cs -> not_multiple (length cs) ->
  exists d, ifc_build (map terminated cs) = Ok d /\
    forall prefix a b dl dr,
    (a <= b < 4294967296)%N ->
    (continues prefix a b (nth 0 cs []) -> nth 0 cs [] = prefix ++ [a]) ->
    length dl = 128 -> length dr = 128 ->
    exists r prefix' dl' dr',
      ifc_locate_prefix d prefix a b dl dr = Ok (r, prefix', dl', dr') /\
      length dl' = 128 /\ length dr' = 128 /\
      (r <> None \/ a <> b -> prefix' = prefix) /\
      match r with
      | Some (i, j) => exact_range_excl (length cs) (fun k => continues prefix a b (nth k cs [])) i j
      | None => forall k, k < length cs -> ~ continues prefix a b (nth k cs [])
      end.
Proof.
  intros cs W H17. destruct (ifc_build_layout cs W) as (d & E & L). exists d. split; [exact E|].
  intros prefix a b dl dr Hab Hg Hdl Hdr. exact (ifc_locate_prefix_ok d cs prefix a b dl dr L W H17 Hab Hg Hdl Hdr).
Qed.
Print Assumptions C15_locate_prefix_partial.

(** For every prefix and range: exactly the continuations are found, of which the first completion is taken only if it
    is prefix ++ [a] (F2); and what becomes of the prefix (F3). *)
Theorem C15_locate_prefix_exact_partial {bucket : bucket_size} : forall cs,
  wf_completions cs -> not_multiple (length cs) ->
  exists d, ifc_build (map terminated cs) = Ok d /\
    forall prefix a b dl dr,
    (a <= b < 4294967296)%N -> length dl = 128 -> length dr = 128 ->
    exists r prefix' dl' dr',
      ifc_locate_prefix d prefix a b dl dr = Ok (r, prefix', dl', dr') /\
      length dl' = 128 /\ length dr' = 128 /\
      (r <> None \/ a <> b -> prefix' = prefix) /\ (r = None /\ a = b -> prefix' = prefix ++ [a]) /\
      match r with
      | Some (i, j) => exact_range_excl (length cs) (fun k => continues_found (nth 0 cs []) prefix a b (nth k cs [])) i j
      | None => forall k, k < length cs -> ~ continues_found (nth 0 cs []) prefix a b (nth k cs [])
      end.
Proof.
  intros cs W H17. destruct (ifc_build_layout cs W) as (d & E & L). exists d. split; [exact E|].
  intros prefix a b dl dr Hab Hdl Hdr. exact (ifc_locate_prefix_exact d cs prefix a b dl dr L W H17 Hab Hdl Hdr).
Qed.
Print Assumptions C15_locate_prefix_exact_partial.

(** F2: the first completion is in the range but is not reported. *)
Theorem C15_locate_prefix_refuted :
  exists cs d prefix a b dl' dr' prefix',
    wf_completions cs /\ not_multiple_of_17 (length cs) /\ ifc_build (map terminated cs) = Ok d /\
    (a <= b < 4294967296)%N /\ continues prefix a b (nth 0 cs []) /\
    ifc_locate_prefix d prefix a b (repeat 0%N 128) (repeat 0%N 128) = Ok (None, prefix', dl', dr').
Proof.
  exists [[1;2]; [3]]%N. eexists. exists [], 1%N, 1%N. do 3 eexists.
  split; [apply wf_completionsb_wf; vm_compute; reflexivity|].
  split; [vm_compute; discriminate|]. split; [vm_compute; reflexivity|].
  split; [lia|]. split; [exists 1%N, [2%N]; split; [reflexivity|lia]|].
  vm_compute. reflexivity.
Qed.
Print Assumptions C15_locate_prefix_refuted.

(** F3: no match and a = b: the caller's prefix comes back with one token more. *)
Theorem C15_prefix_unchanged_refuted :
  exists cs d prefix a dl' dr',
    wf_completions cs /\ not_multiple_of_17 (length cs) /\ ifc_build (map terminated cs) = Ok d /\
    ifc_locate_prefix d prefix a a (repeat 0%N 128) (repeat 0%N 128) = Ok (None, prefix ++ [a], dl', dr').
Proof.
  exists [[1;2]; [3]]%N. eexists. exists [3%N], 5%N. do 2 eexists.
  split; [apply wf_completionsb_wf; vm_compute; reflexivity|].
  split; [vm_compute; discriminate|]. split; [vm_compute; reflexivity|].
  vm_compute. reflexivity.
Qed.
Print Assumptions C15_prefix_unchanged_refuted.

(** C16: indexed completions are located, and an answer is never wrong. Missing:
    sequences that were not indexed may reach __builtin_unreachable (F4). *)
Theorem C16_locate_partial {bucket : bucket_size} : forall cs,
  wf_completions cs -> not_multiple (length cs) ->
  exists d, ifc_build (map terminated cs) = Ok d /\
    forall c dec, length dec = 128 ->
    (forall i, nth_error cs i = Some c ->
       exists dec', ifc_locate d c dec = Ok (Some i, dec') /\ length dec' = 128) /\
    (forall i dec', ifc_locate d c dec = Ok (Some i, dec') -> nth_error cs i = Some c).
Proof.
  intros cs W H17. destruct (ifc_build_layout cs W) as (d & E & L). exists d. split; [exact E|].
  intros c dec Hdec. destruct (ifc_locate_ok d cs L W H17 c dec Hdec) as [H1 H2]. split.
  - intros i Hi. apply (nth_error_nth_iff cs i []) in Hi as [Hi Ei]. exact (H1 i Hi Ei).
  - intros i dec' H. apply (nth_error_nth_iff cs i []). exact (H2 i dec' H).
Qed.
Print Assumptions C16_locate_partial.

(** F4: locating a sequence greater than everything in its bucket is undefined. *)
Theorem C16_locate_refuted :
  exists cs d c, wf_completions cs /\ not_multiple_of_17 (length cs) /\
    ifc_build (map terminated cs) = Ok d /\ ~ In c cs /\
    ifc_locate d c (repeat 0%N 128) = UB.
Proof.
  exists [[1]]%N. eexists. exists [2%N].
  split; [apply wf_completionsb_wf; vm_compute; reflexivity|].
  split; [vm_compute; discriminate|]. split; [vm_compute; reflexivity|].
  split; [intros [H|[]]; discriminate|]. vm_compute. reflexivity.
Qed.
Print Assumptions C16_locate_refuted.

(** F20: two equal completions in a row make the builder read a reversed range. *)
Theorem C43_duplicate_completions_refuted :
  exists cs, cs <> [] /\ Forall wf_completion cs /\ ifc_build (map terminated cs) = UB.
Proof.
  exists [[1]; [1]]%N. split; [discriminate|].
  split; [repeat constructor; cbn; try lia|]. vm_compute. reflexivity.
Qed.
Print Assumptions C43_duplicate_completions_refuted.

(** C34, first half: the map filled while building is exactly the inverse of the
    list of doc ids in file order (so it is a bijection on the indexed completions). *)
Theorem C34_docid_to_lexid_partial {bucket : bucket_size} : forall universe docs,
  NoDup docs -> (forall x, In x docs -> x < universe) -> not_multiple (length docs) ->
  exists m, ifc_docid_to_lexid universe docs = Ok m /\ length m = universe /\
    forall doc i, nth_error m doc = Some (Some i) <-> nth_error docs i = Some doc.
Proof. exact docid_to_lexid_ok. Qed.
Print Assumptions C34_docid_to_lexid_partial.

(** With 17 completions only the first one gets an entry (F23). *)
Theorem C34_docid_to_lexid_refuted :
  exists m, ifc_docid_to_lexid 17 (seq 0 17) = Ok m /\ nth_error m 16 = Some None.
Proof. eexists. split; vm_compute; reflexivity. Qed.
Print Assumptions C34_docid_to_lexid_refuted.

(** The hypotheses hold for a set of completions spread over two buckets. *)
Definition example_completions : list (list N) := map (fun i => [N.of_nat (1 + i / 3); N.of_nat (1 + i mod 3)]) (seq 0 20).
Example C14_C16_nonvacuous :
  wf_completions example_completions /\ not_multiple_of_17 (length example_completions) /\
  (continues [] 3 4 (nth 0 example_completions []) -> nth 0 example_completions [] = [] ++ [3%N]) /\
  continues [] 3 4 (nth 7 example_completions []).
Proof.
  split; [apply wf_completionsb_wf; vm_compute; reflexivity|].
  split; [vm_compute; discriminate|].
  split; [intros (x & r & H & Hx); vm_compute in H; injection H as <- _; lia|].
  exists 3%N, [2%N]. split; [reflexivity|lia].
Qed.
