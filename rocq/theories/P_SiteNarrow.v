(** Proofs about typing on. *)
From Coq Require Import Sorted String.
From Verif Require Import Base S_Python S_Order S_Parse M_Auto S_Collection S_Json S_Session S_Prep S_Site S_SiteNarrow.
From Verif Require Import P_Parse P_Session.
Local Open Scope nat_scope.

Section Narrow.
  Context {py : python}.
  Variable es : entries.

  Lemma split_on t ts last x : query_split t ts last -> no_space x -> query_split (t ++ x) ts (last ++ x).
  Proof using. intros (body & -> & Hl & Hb) Hx. exists body. split; [now rewrite app_assoc|]. split; [apply Forall_app; now split|exact Hb]. Qed.
  Lemma matches_on ts last x ws : matches_all es ts (last ++ x) ws -> matches_all es ts last ws.
  Proof using. intros [H (w & Hw & (y & Hy))]. split; [exact H|]. exists w. split; [exact Hw|]. exists (x ++ y). now rewrite app_assoc. Qed.

  Lemma narrowed r r' data data' : types_on r r' -> completed es r data -> completed es r' data' ->
    exists k texts texts', counts (snd r) k /\ lists data texts /\ lists data' texts' /\ length texts <= k /\ length texts' <= k /\
      (length texts < k -> length texts' <= length texts /\ incl texts' texts).
  Proof using.
    intros (Ek & t & x & Et & Et' & Hx) (k & ts & last & out & (u & Eu & _ & Hk & Hk1 & Hq) & (Hs & Hl & Hout & Hall) & Hj & He) (k' & ts' & last' & out' & (u' & Eu' & _ & Hk' & _ & Hq') & (Hs' & Hl' & Hout' & Hall') & Hj' & He').
    assert (u = t) as -> by congruence. assert (u' = t ++ x) as -> by congruence. rewrite <- Ek in Hk'. assert (k' = k) as -> by exact (counts_unique _ _ _ Hk' Hk).
    destruct (query_split_det _ _ _ _ _ Hq' (split_on _ _ _ _ Hq Hx)) as [-> ->].
    exists k, (map snd out), (map snd out'). split; [exact Hk|].
    split; [split; intros H; [apply Hj; intros ->; now apply H|apply He; now destruct out]|].
    split; [split; intros H; [apply Hj'; intros ->; now apply H|apply He'; now destruct out']|].
    rewrite !map_length. split; [exact Hl|]. split; [exact Hl'|]. intros Hlt.
    assert (Hi : incl out' out).
    { intros [d s] Hd. destruct (Hout' d s Hd) as (ws & Hws & Hm & ->). destruct (Hall d ws Hws (matches_on _ _ _ _ Hm)) as [H|[H _]]; [exact H|lia]. }
    split; [|intros s Hd; apply in_map_iff in Hd as (p & <- & Hp); apply in_map, Hi, Hp].
    apply NoDup_incl_length; [|exact Hi]. apply (NoDup_map_inv fst). clear -Hs'. induction Hs' as [|a l _ IH Ha]; constructor; [|exact IH].
    intros H. rewrite Forall_forall in Ha. specialize (Ha _ H). lia.
  Qed.
End Narrow.
