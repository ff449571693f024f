(** Proofs about the requests of the page. *)
From Coq Require Import String.
From Verif Require Import Base S_Order S_Vocab S_Parse M_Fc M_Trie M_Containers S_Containers M_Auto M_Auto1 S_Collection S_Index S_Found S_Blank S_Json M_Web M_Request S_Request.
From Verif Require Import P_Auto1 P_Web P_Meta P_Blank.
Local Open Scope nat_scope.

Lemma decimal_ne t k : decimal t k -> t <> [].
Proof. intros ((H & _) & _). exact H. Qed.
Lemma asks_k kvar k : asks_for kvar k -> (N.of_nat k < 4294967296)%N ->
  (match http_var 16 kvar with [] => Ok 10%N | _ => stoull (http_var 16 kvar) end) = Ok (N.of_nat k).
Proof.
  intros H Hk. unfold asks_for, http_var in *. destruct kvar as [t|]; [|subst k; reflexivity]. destruct H as [[Hl Hd]|[Hl ->]].
  - destruct (Nat.ltb_spec (length t) 16) as [_|]; [|lia]. pose proof (decimal_ne t k Hd) as Hn. destruct t as [|b t]; [congruence|].
    apply stoull_ok; [exact Hd|lia].
  - destruct (Nat.ltb_spec (length t) 16); [lia|]. reflexivity.
Qed.

Section Request.
  Context (K : containers) (HK : containers_ok K) (c : collection) (Hwf : wf_collection c) (Hp : some_doc_positive c) (H0 : some_term_not_in_doc0 c).

  Lemma typed_served : sizes_ok c -> exists x, ac1_build K (files_of c) = Ok x /\
    forall fuel k q kvar ts last s, query_fuel c < fuel -> length q <= 127 -> asks_for kvar k -> 1 <= k <= MAX_K ->
    query_split q ts last -> first_term_ok c last -> state1_ok s ->
    exists out, topk_answer c (conj_match c ts last) k out /\
      (fits_pool out -> out <> [] -> no_percent out ->
       exists data v s', serve K x fuel (Some q) kvar s = Ok (data, s') /\ is_json data v /\ suggestions (map snd out) v /\ state1_ok s').
  Proof using HK Hwf Hp H0.
    intros H17. destruct (auto1_spec K HK c Hwf Hp H0 H17) as (x & E & H). exists x. split; [exact E|].
    intros fuel k q kvar ts last s A1 Aq A2 A3 A5 A6 A7. destruct (H fuel k q ts last s A1 A3 A5 A6 A7) as (_ & out & Ho & Hq). exists out. split; [exact Ho|].
    intros B1 B2 B3. destruct (Hq B1) as (s' & Es & Er & Hs').
    destruct (body_json _ _ Er B2) as (data & v & Eb & Hj & Hv). exists data, v, s'.
    split; [|split; [exact Hj|split; [exact Hv|exact Hs']]]. unfold serve, topcomp. rewrite (asks_k kvar k A2) by (unfold MAX_K in A3; lia).
    cbn [bind http_var]. change MAX_CHARS with 128. destruct (Nat.ltb_spec (length q) 128) as [_|]; [|lia].
    rewrite N.mod_small, Nat2N.id by (unfold MAX_K in A3; lia). rewrite Es. cbn [bind]. rewrite Eb. cbn [bind].
    rewrite (body_printf _ _ _ Er B2 Eb B3). reflexivity.
  Qed.

  Lemma long_served : exists x, ac1_build K (files_of c) = Ok x /\
    forall fuel k q kvar s, query_fuel c < fuel -> q = None \/ (exists t, q = Some t /\ 127 < length t) -> asks_for kvar k -> (N.of_nat k < 4294967296)%N -> state1_ok s ->
    exists out, best c k out /\
      (reportable c out -> out <> [] -> no_percent out ->
       exists data v s', serve K x fuel q kvar s = Ok (data, s') /\ is_json data v /\ suggestions (map snd out) v) /\
      (~ reportable c out -> serve K x fuel q kvar s = UB).
  Proof using HK Hwf Hp H0.
    destruct (blank1 c Hwf K HK Hp H0) as (x & E & H). exists x. split; [exact E|].
    intros fuel k q kvar s Hf Hq Hk Hk' Hs.
    destruct (H fuel {| rq_conj := true; rq_k := k; rq_text := [] |} s Hf (Forall_nil _) Hs) as (out & Hb & G1 & G2).
    unfold ac1_request in G1, G2. cbn [rq_conj rq_k rq_text] in *. exists out. split; [exact Hb|].
    assert (Eq : http_var MAX_CHARS q = []).
    { destruct Hq as [->|(t & -> & Ht)]; [reflexivity|]. cbn [http_var]. change MAX_CHARS with 128.
      destruct (Nat.ltb_spec (length t) 128); [lia|reflexivity]. }
    unfold serve, topcomp. rewrite (asks_k kvar k Hk Hk'), Eq. cbn [bind]. rewrite N.mod_small, Nat2N.id by exact Hk'. split.
    - intros Hr Hne Hpc. destruct (G1 Hr) as (s' & Es & Er). destruct (body_json _ _ Er Hne) as (data & v & Eb & Hj & Hv).
      exists data, v, s'. split; [|split; assumption]. rewrite Es. cbn [bind]. rewrite Eb. cbn [bind]. rewrite (body_printf _ _ _ Er Hne Eb Hpc). reflexivity.
    - intros Hr. rewrite (G2 Hr). reflexivity.
  Qed.
End Request.
