(** * CumulApi: the lines carried from day to day, for every object a constructor returns. *)
From Coq Require Import ZArith QArith Qcanon Bool List String PeanoNat Lia Sorted Permutation.
From Verif Require Import Num NumFacts RoundFacts Pandas Sim Frame FrameSpec FrameProofs Ind Signal Api IndSpec SeriesFacts Lengths Causal IndFacts Shape ApiSpec ApiCheck ApiProofs ApiLemmas RangeSpec Cells RangeFacts RangeMore Publish RangeApi ValueSpec ValueFacts ValueMore Recur ValueApi.
Import ListNotations.
Open Scope list_scope. Open Scope string_scope.

Lemma complete_prefix s k x : (forall j, (j <= k)%nat -> nth j s NaN = Fin (x j)) -> complete_as (S k) (firstn (S k) s) x.
Proof.
  intro H. assert (L : (k < List.length s)%nat).
  { destruct (Nat.lt_ge_cases k (List.length s)) as [L|L]; auto. specialize (H k (le_n k)). rewrite nth_overflow in H by exact L. discriminate. }
  split; [rewrite firstn_length; lia|]. intros j J. rewrite nth_firstn by lia. apply H. lia.
Qed.
Lemma view_known {o i raw b ob f} (V : view o i raw b ob f) c k x : In c (required i) -> known (given c ob) k x ->
  complete_as (S k) (firstn (S k) (col c f)) x.
Proof. intros I H. apply complete_prefix. intros j J. rewrite <- (view_given V c j I). apply H. exact J. Qed.
Lemma view_all {o i raw b ob f} (V : view o i raw b ob f) c x : In c (required i) -> known (given c ob) (days_given ob - 1) x ->
  complete_as (List.length (rows f)) (col c f) x.
Proof.
  intros I H. split; [apply (view_length V); auto|]. intros j J. rewrite <- (view_given V c j I). apply H. rewrite (view_days V). lia.
Qed.
Lemma row_cut (s : series) k : nth k s NaN = nth k (firstn (S k) s) NaN.
Proof. symmetry. apply nth_firstn. lia. Qed.

Section Cumul.
  Variables (o : oracle) (raw : rawframe) (b : bool) (ob : obj).
  Hypothesis W : wf_raw raw.
  Notation constructed c := (snd (construct o c (RFrame raw) (VBool b)) = Ok ob).
  Local Open Scope Qc_scope.

  Lemma obv_shown_line k cx vx : constructed cOBV -> known (given "close" ob) k cx -> known (given "volume" ob) k vx ->
    shown "obv" ob k = Fin (obv_line cx vx k).
  Proof.
    intros H KC KV. look f V VV. unfold shown. shown V. rewrite row_cut, <- obv_firstn.
    apply (obv_cells (S k)); [apply (view_known V); auto; req|apply (view_known V); auto; req|lia].
  Qed.
  Lemma pvt_shown_line k cx vx : constructed cPVT -> known (given "close" ob) k cx -> known (given "volume" ob) k vx ->
    (forall j, (j < k)%nat -> cx j <> 0) -> shown "pvt" ob k = Fin (r4 (pvt_line cx vx k)).
  Proof.
    intros H KC KV NZ. look f V VV. unfold shown. shown V. rewrite row_cut, <- pvt_firstn.
    apply (pvt_cells (S k)); [apply (view_known V); auto; req|apply (view_known V); auto; req|intros j J; apply NZ; lia|lia].
  Qed.
  Lemma nvi_shown_line k cx vx : constructed cNVI -> known (given "close" ob) k cx -> known (given "volume" ob) k vx ->
    (forall j, (j < k)%nat -> cx j <> 0) -> shown "nvi" ob k = Fin (r4 (index_line (fun before now => qltb now before) cx vx k)).
  Proof.
    intros H KC KV NZ. look f V VV. unfold shown. shown V. unfold nvi. rewrite row_cut, <- vi_firstn.
    apply (vi_cells (S k)); auto; [apply (view_known V); auto; req|apply (view_known V); auto; req|intros j J; apply NZ; lia].
  Qed.
  Lemma pvi_shown_line k cx vx : constructed cPVI -> known (given "close" ob) k cx -> known (given "volume" ob) k vx ->
    (forall j, (j < k)%nat -> cx j <> 0) -> shown "pvi" ob k = Fin (r4 (index_line (fun before now => qltb before now) cx vx k)).
  Proof.
    intros H KC KV NZ. look f V VV. unfold shown. shown V. unfold pvi. rewrite row_cut, <- vi_firstn.
    apply (vi_cells (S k)); auto; [apply (view_known V); auto; req|apply (view_known V); auto; req|intros j J; apply NZ; lia].
  Qed.
  Lemma adl_shown_line k cx vx hx lx : constructed cADL -> (k < days_given ob)%nat ->
    known (given "close" ob) (days_given ob - 1) cx -> known (given "volume" ob) (days_given ob - 1) vx ->
    known (given "high" ob) (days_given ob - 1) hx -> known (given "low" ob) (days_given ob - 1) lx ->
    (forall j, (j < days_given ob)%nat -> lx j <= cx j /\ cx j <= hx j) ->
    let line := total (fun j => adl_move (hx j) (lx j) (cx j) (vx j)) (S k) in
    ((forall j, (j < days_given ob)%nat -> lx j < hx j) -> shown "adl" ob k = Fin (qtrunc line)) /\
    ((exists j, (j < days_given ob)%nat /\ hx j = lx j) -> shown "adl" ob k = if qltb (lx k) (hx k) then Fin line else NaN).
  Proof.
    intros H K KC KV KH KL P. look f V VV. rewrite (view_days V) in *. unfold shown. shown V.
    apply (adl_cells (List.length (rows f))); auto; apply (view_all V); auto; try (req; fail); rewrite (view_days V); auto.
  Qed.
  Lemma adl_shown_step k cx vx hx lx : constructed cADL -> (S k < days_given ob)%nat ->
    known (given "close" ob) (days_given ob - 1) cx -> known (given "volume" ob) (days_given ob - 1) vx ->
    known (given "high" ob) (days_given ob - 1) hx -> known (given "low" ob) (days_given ob - 1) lx ->
    (forall j, (j < days_given ob)%nat -> lx j <= cx j /\ cx j <= hx j) ->
    (exists j, (j < days_given ob)%nat /\ hx j = lx j) -> lx k < hx k -> lx (S k) < hx (S k) -> 0 <= vx (S k) ->
    exists a a', shown "adl" ob k = Fin a /\ shown "adl" ob (S k) = Fin a' /\
      - vx (S k) <= a' - a /\ a' - a <= vx (S k) /\
      (0 < a' - a <-> 0 < vx (S k) /\ (hx (S k) + lx (S k)) < zq 2 * cx (S k)) /\
      (a' - a < 0 <-> 0 < vx (S k) /\ zq 2 * cx (S k) < hx (S k) + lx (S k)).
  Proof.
    intros H K KC KV KH KL P F A B N.
    destruct (adl_shown_line k cx vx hx lx H ltac:(lia) KC KV KH KL P) as [_ X].
    destruct (adl_shown_line (S k) cx vx hx lx H K KC KV KH KL P) as [_ Y].
    specialize (X F). specialize (Y F). rewrite (proj2 (qltb_iff _ _) A) in X. rewrite (proj2 (qltb_iff _ _) B) in Y.
    do 2 eexists. split; [exact X|]. split; [exact Y|].
    set (m := fun j => adl_move (hx j) (lx j) (cx j) (vx j)). change (total m (S (S k))) with (total m (S k) + m (S k)).
    replace (total m (S k) + m (S k) - total m (S k)) with (m (S k)) by ring. unfold m. destruct (P (S k) K) as [P1 P2].
    destruct (adl_move_bounded _ _ _ _ P1 P2 N) as (Q1 & Q2 & Q3 & Q4). split; [exact Q1|]. split; [exact Q2|]. rewrite Q3, Q4. tauto.
  Qed.
End Cumul.
