(** * FlatFacts: the formulas on a constant price. *)
From Coq Require Import ZArith QArith Qcanon Bool List String PeanoNat Lia Sorted Permutation.
From Verif Require Import Num NumFacts RoundFacts Pandas Sim Frame FrameSpec FrameProofs Ind Signal Api IndSpec SeriesFacts Lengths Causal IndFacts Shape ApiSpec ApiCheck ApiProofs ApiLemmas RangeSpec Cells RangeFacts RangeMore Publish RangeApi ValueSpec ValueFacts ValueMore Recur ValueApi CumulApi.
From Verif Require Import FormulaSpec Starts Formula Formula2 Formula3 Formula4 Line Formula5 Formula6 FormulaApi.
Import ListNotations.
Open Scope list_scope. Open Scope string_scope. Open Scope Qc_scope.

Lemma nq_nonzero n : (1 <= n)%nat -> nq n <> 0.
Proof. intros H E. assert (0 < nq n) by (apply nq_pos; lia). qlra. Qed.
Lemma r4_zero : r4 0 = 0. Proof. apply Qc_is_canon. vm_compute. reflexivity. Qed.

Section Flat.
  Variables (f : nat -> Qc) (v : Qc).
  Hypothesis F : forall j, f j = v.
  Lemma flat_total n g : (forall j, g j = v) -> total g n = nq n * v.
  Proof. intro G. rewrite <- total_const. apply total_ext. intros. apply G. Qed.
  Lemma flat_mean n k : (1 <= n)%nat -> mean_last f n k = v.
  Proof. intro N. unfold mean_last, sum_last. rewrite flat_total by (intro; apply F). field. apply nq_nonzero, N. Qed.
  Lemma flat_ema a n k : ema_from a n f k = v.
  Proof. unfold ema_from. induction (k - a)%nat; cbn [ema]; [apply F|]. rewrite IHn0, F. ring. Qed.
  Lemma flat_wilder a n seed k : (1 <= n)%nat -> seed = v -> run_from a (wilders n) seed f k = v.
  Proof.
    intros N ->. unfold run_from. induction (k - a)%nat; cbn [run]; auto. rewrite IHn0, F. unfold wilders. replace (v - v) with 0 by ring.
    unfold Qcdiv. ring.
  Qed.
  Lemma flat_variance n k : variance (last_rows f n k) n = 0.
  Proof.
    unfold variance. destruct n as [|n]; [reflexivity|]. assert (M : mean (last_rows f (S n) k) (S n) = v).
    { unfold mean. rewrite flat_total by (intro; apply F). field. apply nq_nonzero. lia. }
    unfold mean at 1. rewrite (total_ext _ (fun _ => 0)), total_const; [unfold Qcdiv; ring|]. intros j J. rewrite M. unfold last_rows. rewrite F. ring.
  Qed.
  Lemma flat_slope n k : slope_last f n k = 0.
  Proof.
    unfold slope_last, fit_slope. rewrite (flat_total n (last_rows f n k)) by (intro; apply F).
    rewrite (total_ext _ (fun i => v * nq i)), total_mul by (intros; unfold last_rows; rewrite F; ring).
    set (D := nq n * total (fun i => nq i * nq i) n - total nq n * total nq n). unfold Qcdiv. ring.
  Qed.
  Lemma flat_end n k : (1 <= n)%nat -> end_last f n k = v.
  Proof.
    intro N. unfold end_last, fit_start. fold (slope_last f n k). rewrite flat_slope, (flat_total n (last_rows f n k)) by (intro; apply F).
    field. apply nq_nonzero, N.
  Qed.
  Lemma flat_forecast n k : (1 <= n)%nat -> forecast f n k = r4 v.
  Proof. intro N. unfold forecast. rewrite flat_slope, flat_end, r4_zero by exact N. ring. Qed.
End Flat.

Section Published.
  Variables (o : oracle) (raw : rawframe) (b : bool) (ob : obj).
  Hypothesis W : wf_raw raw.
  Notation constructed c := (snd (construct o c (RFrame raw) (VBool b)) = Ok ob).
  Variables (k : nat) (v : Qc).
  Hypothesis FL : known (given "close" ob) k (fun _ => v).
  Lemma flat_averages p t : constructed (cMA p (VStr t)) -> In t ["simple"; "exponential"; "triangular"] ->
    shown ("ma-" ++ t) ob k = from (if String.eqb t "triangular" then 2 * (nat_arg p - 1) else nat_arg p - 1) k (Fin (r4 v)).
  Proof.
    intros C I. assert (P : (1 <= nat_arg p)%nat) by (look f V VV; lia). destruct I as [<-|[<-|[<-|[]]]]; cbn [append String.eqb Ascii.eqb Bool.eqb].
    - erewrite simple_moving_average_shown by eauto. rewrite (flat_mean _ v) by auto. reflexivity.
    - erewrite exponential_moving_average_shown by eauto. rewrite (flat_ema _ v) by auto. reflexivity.
    - erewrite triangular_moving_average_shown by eauto. rewrite (flat_mean _ v); auto. intro. apply flat_mean; auto.
  Qed.
  Lemma flat_time_series p : (2 <= nat_arg p)%nat -> constructed (cMA p (VStr "time_series")) -> shown "ma-time_series" ob k = from (nat_arg p - 1) k (Fin (r4 v)).
  Proof. intros P C. erewrite time_series_moving_average_shown by eauto. rewrite (flat_forecast _ v); auto. lia. Qed.
  Lemma flat_dema p : constructed (cDEMA p) -> shown "dema" ob k = from (2 * (nat_arg p - 1)) k (Fin (r4 v)).
  Proof.
    intro C. erewrite double_exponential_shown by eauto. rewrite (flat_ema (ema_from 0 (nat_arg p) (fun _ => v)) v), (flat_ema (fun _ => v) v); auto.
    - do 3 f_equal. change (zq 2) with (1 + 1). ring. - intro. apply flat_ema. auto.
  Qed.
  Lemma flat_tema p : constructed (cTEMA p) -> shown "tema" ob k = from (3 * (nat_arg p - 1)) k (Fin (r4 v)).
  Proof.
    intro C. erewrite triple_exponential_shown by eauto. set (n := nat_arg p).
    assert (E1 : forall j, ema_from 0 n (fun _ => v) j = v) by (intro; apply flat_ema; auto).
    assert (E2 : forall j, ema_from (n - 1) n (ema_from 0 n (fun _ => v)) j = v) by (intro; apply flat_ema; auto).
    rewrite E1, E2, (flat_ema _ v) by auto. do 3 f_equal. change (zq 3) with (1 + 1 + 1). ring.
  Qed.
  Lemma flat_ws p : constructed (cWS p) -> shown "ws" ob k = from (nat_arg p - 1) k (Fin (r4 v)).
  Proof.
    intro C. assert (P : (1 <= nat_arg p)%nat) by (look f V VV; lia). erewrite wilders_smoothing_shown by eauto.
    rewrite (flat_wilder _ v); auto. apply flat_mean; auto.
  Qed.
  Lemma flat_macd : constructed cMACD -> shown "macd" ob k = from 25 k (Fin 0) /\ shown "signal_line" ob k = from 33 k (Fin 0).
  Proof.
    intro C. destruct (macd_shown o raw b ob W k _ C FL) as [-> ->].
    assert (E : forall n j, ema_from 0 n (fun _ => v) j = v) by (intros; apply flat_ema; auto).
    split; [rewrite !E; replace (r4 v - r4 v) with 0 by ring|rewrite (flat_ema _ 0) by (intro; rewrite !E; ring)]; rewrite r4_zero; reflexivity.
  Qed.
  Lemma flat_posc p q : v <> 0 -> constructed (cPOSC p q) -> shown "posc" ob k = from (nat_arg p - 1) k (Fin 0).
  Proof.
    intros Z C. assert (P : (1 <= nat_arg p)%nat /\ (1 <= nat_arg q)%nat) by (look f V VV; lia). erewrite price_oscillator_shown by eauto.
    rewrite !(flat_mean _ v) by (auto; lia). unfold ratio. rewrite ndiv_fin by auto. replace (zq 100 * (v - v) / v) with 0 by (field; auto). f_equal. unfold rn. cbn [nround]. fold (r4 0). rewrite r4_zero. reflexivity.
  Qed.
  Lemma flat_dpo p : constructed (cDPO p) -> let d := S (nat_arg p / 2) in (d <= k)%nat -> shown "dpo" ob (k - d) = from (nat_arg p - 1 - d) (k - d) (Fin 0).
  Proof.
    intros C d D. assert (P : (1 <= nat_arg p)%nat) by (look f V VV; lia). unfold d. erewrite detrended_price_shown by eauto.
    rewrite (flat_mean _ v) by auto. replace (v - v) with 0 by ring. rewrite r4_zero. reflexivity.
  Qed.
  Lemma flat_sd p : o_sqrt o 0 = 0 -> constructed (cSD p) -> shown "sd" ob k = from (nat_arg p - 1) k (Fin 0).
  Proof. intros Z C. erewrite standard_deviation_shown by eauto. rewrite (flat_variance _ v), Z, r4_zero by auto. reflexivity. Qed.
  Lemma flat_slope_shown p : (2 <= nat_arg p)%nat -> constructed (cLRS p) -> shown "lrs" ob k = from (nat_arg p - 1) k (Fin 0).
  Proof. intros P C. erewrite regression_slope_shown by eauto. rewrite (flat_slope _ v), r4_zero by auto. reflexivity. Qed.
  Lemma flat_lri p : constructed (cLRI p) -> shown "lri" ob k = from (nat_arg p - 1) k (Fin (r4 v)).
  Proof. intros C. assert (P : (1 <= nat_arg p)%nat) by (look f V VV; lia). erewrite regression_indicator_shown by eauto. rewrite (flat_end _ v) by auto. reflexivity. Qed.
  Lemma flat_tsf p : constructed (cTSF p) -> shown "tsf" ob k = from (nat_arg p - 1) k (Fin (r4 v)).
  Proof. intros C. assert (P : (1 <= nat_arg p)%nat) by (look f V VV; lia). erewrite time_series_forecast_shown by eauto. rewrite (flat_forecast _ v) by auto. reflexivity. Qed.
End Published.
