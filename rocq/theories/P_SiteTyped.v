(** Proofs about typing a completion of the input out. *)
From Verif Require Import Base S_Python S_Order S_Parse M_Auto S_Collection S_Json S_Session S_Prep S_Site S_SiteTyped.
From Verif Require Import P_Order P_Parse P_PrepDict P_Prep P_Session P_Again.
Local Open Scope nat_scope.

Section Typed.
  Context {py : python}.
  Variable es : entries.
  Hypothesis Hv : valid_input es.

  Lemma word_plain w : is_word w -> encoded w <> [] /\ no_space (encoded w).
  Proof using.
    intros [Hn Hl]. split.
    - pose proof (length_encoded w). destruct w; [congruence|]. intros E. rewrite E in H. cbn [length] in H. lia.
    - eapply Forall_impl; [|exact (encoded_bytes w Hl)]. cbv beta. intros b [Hb _]. lia.
  Qed.
  Lemma entry_words d ws : In (d, ws) es -> Forall is_word ws.
  Proof using Hv. intros H. pose proof (vi_words _ Hv) as Hw. rewrite Forall_forall in Hw. exact (proj1 (proj2 (Hw _ H))). Qed.

  Lemma types_wants r k d ws w : types_out es r k d ws w -> wants r k (map encoded ws) (encoded w).
  Proof using Hv.
    intros (Hin & Ht & Hl & Hk & Hb). exists (encoded (join (ws ++ [w]))). split; [exact Ht|]. split; [exact Hl|]. split; [exact Hk|]. split; [exact Hb|].
    pose proof (entry_words _ _ Hin) as Hw. apply Forall_app in Hw as [Hws Hw]. apply Forall_inv in Hw. rewrite <- encoded_join, map_app. cbn [map]. apply join_split; [|exact (proj2 (word_plain w Hw))].
    apply Forall_map. eapply Forall_impl; [|exact Hws]. exact word_plain.
  Qed.
  Lemma types_first V r k d ws w : dictionary es V -> types_out es r k d ws w -> not_first V (encoded w).
  Proof using.
    intros [Hs Hd] (Hin & _) v W -> Hp _. assert (Hw : In (encoded w) (v :: W)).
    { apply Hd. exists w. split; [|reflexivity]. exists (d, ws ++ [w]). split; [exact Hin|]. apply in_or_app. right. now left. }
    destruct (prefix_lex _ _ Hp) as [E|L]; [now symmetry|]. destruct Hw as [E|Hw]; [exact E|]. exfalso.
    apply lex_ssorted in Hs. apply Sorted.StronglySorted_inv in Hs as [_ Hs]. rewrite Forall_forall in Hs. exact (lex_irrefl _ (lex_trans _ _ _ L (Hs _ Hw))).
  Qed.
  Lemma types_offers r k d ws w data : types_out es r k d ws w -> completed es r data -> offers es k d ws w data.
  Proof using Hv.
    intros Ht (k' & ts & last & out & Hw' & (_ & _ & Hout & Hall) & Hj & He). pose proof (types_wants _ _ _ _ _ Ht) as Hw.
    destruct Hw as (t & E & _ & Hk & Hkb & Hq). destruct Hw' as (t' & E' & _ & Hk' & _ & Hq'). assert (t' = t) as -> by congruence.
    assert (k' = k) as -> by exact (counts_unique _ _ _ Hk' Hk). destruct (query_split_det _ _ _ _ _ Hq' Hq) as [-> ->]. destruct Ht as (Hin & _).
    assert (H : In (d, encoded (join (ws ++ [w]))) out \/ length out = k /\ Forall (fun x => fst x < d) out).
    { apply Hall; [exact Hin|]. rewrite map_app. split; [intros x Hx _; apply in_or_app; now left|]. exists (encoded w). split; [apply in_or_app; right; now left|]. exists []. now rewrite app_nil_r. }
    destruct Hj as (v & Hv1 & Hv2). { intros ->. destruct H as [[]|[H _]]. cbn in H. lia. }
    exists out, v. split; [exact Hv1|]. split; [exact Hv2|]. split; [exact H|]. intros d' s Hs. destruct (Hout d' s Hs) as (ws' & Hi & [Hm1 (w' & Hw1 & Hw2)] & ->).
    exists ws'. split; [exact Hi|]. split; [reflexivity|]. split.
    - intros x Hx. apply Hm1; [exact Hx|]. apply in_map_iff in Hx as (y & <- & Hy). exists y. split; [|reflexivity]. exists (d, ws ++ [w]). split; [exact Hin|]. apply in_or_app. now left.
    - apply in_map_iff in Hw1 as (y & <- & Hy). exists y. now split.
  Qed.
End Typed.
