(** * MirrorSar: the parabolic stop when every price x becomes m - x. *)
From Coq Require Import ZArith QArith Qcanon Bool List String PeanoNat Lia.
From Verif Require Import Num NumFacts RoundFacts Pandas Sim Frame FrameSpec Ind Signal Api IndSpec ApiSpec RangeSpec ValueSpec FormulaSpec MirrorSpec MirrorFacts MirrorApi SarSpec SarFacts.
Import ListNotations.
Open Scope string_scope. Open Scope Qc_scope.

Section Sar.
  Variables (m : Qc) (h l : nat -> Qc).
  Notation h' := (fun j => m - l j). Notation l' := (fun j => m - h j).
  (** the first two days point one way: the high rises, or the low falls, not both and not neither *)
  Hypothesis ONE : qltb (h 0%nat) (h 1%nat) = negb (qltb (l 1%nat) (l 0%nat)).
  Definition facing (t t' : trend) : Prop := rising t' = negb (rising t) /\ factor t' = factor t /\ extreme t' = m - extreme t /\ stop t' = m - stop t /\ since t' = since t.
  Lemma highest_turn a b : highest h' a b = m - lowest l a b.
  Proof. apply max_to_mir. intro. reflexivity. Qed.
  Lemma lowest_turn a b : lowest l' a b = m - highest h a b.
  Proof. apply min_to_mir. intro. reflexivity. Qed.
  Lemma moved_turn t t' : facing t t' -> moved t' = m - moved t.
  Proof. intros (R & F & X & S & C). unfold moved. rewrite F, X, S. ring. Qed.
  Lemma stop_turn t t' k : facing t t' -> stop_for h' l' t' k = m - stop_for h l t k.
  Proof.
    intro T. pose proof (moved_turn t t' T) as M. destruct T as (R & F & X & S & C). unfold stop_for. rewrite R, M, highest_turn, lowest_turn.
    destruct (rising t); cbn [negb]; [apply larger_mir|apply smaller_mir].
  Qed.
  Lemma broken_turn t t' k : facing t t' -> broken h' l' t' k = broken h l t k.
  Proof. intro T. unfold broken. rewrite (stop_turn t t' k T). destruct T as (-> & _). destruct (rising t); cbn [negb]; apply ltb_mir. Qed.
  Lemma facing_at k : facing (trend_at h l k) (trend_at h' l' k).
  Proof.
    induction k as [|k IH]; cbn [trend_at].
    - unfold trend_first. rewrite ltb_mir, ONE. destruct (qltb (l 1%nat) (l 0%nat)); cbn [negb]; repeat split.
    - rewrite (broken_turn _ _ k IH). destruct (broken h l (trend_at h l k) k).
      + destruct IH as (R & F & X & S & C). unfold turned. rewrite R, C, highest_turn, lowest_turn. destruct (rising (trend_at h l k)); cbn [negb]; repeat split.
      + pose proof (stop_turn _ _ k IH) as T. destruct IH as (R & F & X & S & C). unfold went_on. rewrite R, C, F, X, T, highest_turn, lowest_turn. cbv zeta.
        destruct (rising (trend_at h l k)); cbn [negb]; rewrite ltb_mir; repeat split.
  Qed.
End Sar.

Lemma mir_sar o raw raw' b b' ob ob' m k n h l : wf_raw raw -> wf_raw raw' -> twice cPSAR o raw raw' b b' ob ob' -> even_ticks m -> (1 <= n)%nat -> (k <= n)%nat ->
  (h 0%nat < h 1%nat <-> l 0%nat <= l 1%nat) -> faces m n ob ob' "high" "low" h -> faces m n ob ob' "low" "high" l ->
  shown "sar" ob' k = nsub (Fin m) (shown "sar" ob k).
Proof.
  intros W W' [A B] E N K ONE [H H'] [L L']. rewrite (sar_shown o raw b ob W n k h l A N K H L), (sar_shown o raw' b' ob' W' n k _ _ B N K L' H').
  rewrite fin_sub, <- r4_even_sub by exact E. do 2 f_equal. apply facing_at.
  destruct (qltb (h 0%nat) (h 1%nat)) eqn:Q; destruct (qltb (l 1%nat) (l 0%nat)) eqn:R; try reflexivity; exfalso.
  - apply qltb_iff in Q, R. apply ONE in Q. qlra.
  - apply qltb_false in Q, R. apply ONE in R. qlra.
Qed.
