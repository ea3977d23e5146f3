(** * RangeApi: the ranges, for every object a constructor returns. *)
From Coq Require Import ZArith QArith Qcanon Bool List String PeanoNat Lia Sorted Permutation.
From Verif Require Import Num NumFacts Pandas Sim Frame FrameSpec FrameProofs Ind Signal Api IndSpec SeriesFacts Lengths Causal IndFacts Shape ApiSpec ApiCheck ApiProofs ApiLemmas RangeSpec Cells RangeFacts RangeMore Publish.
Import ListNotations.
Open Scope list_scope. Open Scope string_scope.

Ltac look f V VV :=
  destruct (construct_view _ _ _ _ _ ltac:(eassumption) ltac:(eassumption)) as (f & V); cbn [asked] in V;
  pose proof (v_valid _ _ _ _ _ _ V) as VV; cbn [valid] in VV.
Ltac shown V :=
  match goal with |- context [cell_at ?n ?k _] => erewrite (view_cell V n) by (cbn; reflexivity) end.
Ltac req := cbn [required In]; auto 8.
Ltac collen V := try (rewrite !(view_length V) by req; reflexivity).
Ltac ordered W V := try (apply (view_ple W V); cbn [required]; auto; req).

Section Ranges.
  Variables (o : oracle) (raw : rawframe) (b : bool) (ob : obj).
  Hypothesis W : wf_raw raw.
  Notation constructed c := (snd (construct o c (RFrame raw) (VBool b)) = Ok ob).
  Notation shown_at name k := (cell_at name k (get_ti_data ob)).

  Lemma rsi_shown p k : constructed (cRSI p) -> within 0 100 (shown_at "rsi" k).
  Proof. intro H. look f V VV. shown V. apply (Forall_nth_NaN (within 0 100)); auto. apply rsi_range. auto. Qed.
  Lemma rmi_shown p m k : constructed (cRMI p m) -> within 0 100 (shown_at "rmi" k).
  Proof. intro H. look f V VV. shown V. apply (Forall_nth_NaN (within 0 100)); auto. apply rmi_range. apply VV. Qed.
  Lemma cmo_shown p k : constructed (cCMO p) -> within (-100) 100 (shown_at "cmo" k).
  Proof. intro H. look f V VV. shown V. apply cmo_range. Qed.
  Lemma imi_shown p k : constructed (cIMI p) -> within 0 100 (shown_at "imi" k).
  Proof. intro H. look f V VV. shown V. apply imi_range. collen V. Qed.
  Lemma so_shown kp s d m k : constructed (cSO kp s d m) -> good_window o ->
    proper_days raw -> unfilled ["high"; "low"; "close"] b raw ->
    within 0 100 (shown_at "%K" k) /\ within 0 100 (shown_at "%D" k).
  Proof.
    intros H G [P1 P2] U. look f V VV. destruct VV as (V1 & V2 & V3). split; shown V; [apply so_k_range|apply so_d_range];
      auto; collen V; ordered W V.
  Qed.
  Lemma wr_shown p k : constructed (cWR p) -> proper_days raw -> unfilled ["high"; "low"; "close"] b raw ->
    within (-100) 0 (shown_at "wr" k).
  Proof. intros H [P1 P2] U. look f V VV. shown V. apply wr_range; auto; collen V; ordered W V. Qed.
  Lemma smi_shown p s d k : constructed (cSMI p s d) -> proper_days raw -> complete ["high"; "low"; "close"] raw ->
    within (-100) 100 (shown_at "smi" k).
  Proof.
    intros H [P1 P2] C. look f V VV. destruct VV as (V1 & V2 & V3). pose proof (@complete_unfilled raw b _ C) as U.
    shown V. apply smi_range; auto; collen V; ordered W V. apply (view_finite W V); auto. req.
  Qed.
  Lemma vhf_shown p k : constructed (cVHF p) -> within 0 1 (shown_at "vhf" k).
  Proof. intro H. look f V VV. shown V. apply vhf_range. auto. Qed.
  Lemma dmi_shown k name : constructed cDMI -> proper_days raw -> complete ["high"; "low"; "close"] raw ->
    In name ["+di"; "-di"; "dx"; "adx"; "adxr"] -> within 0 100 (shown_at name k).
  Proof.
    intros H [P1 P2] C N. look f V VV. pose proof (@complete_unfilled raw b _ C) as U.
    set (n := List.length (rows f)).
    assert (L1 : List.length (col "high" f) = n) by (collen V; rewrite (view_length V); auto; req).
    assert (L2 : List.length (col "low" f) = n) by (rewrite (view_length V); auto; req).
    assert (L3 : List.length (col "close" f) = n) by (rewrite (view_length V); auto; req).
    destruct (dm_below (col "high" f) (col "low" f) (col "close" f) n) as [B1 B2]; auto;
      try (apply (view_finite W V); auto; req); ordered W V.
    assert (D1 : forall j, within 0 100 (nth j (dmi_di (plus_dm (col "high" f) (col "low" f)) (true_range_nan (col "high" f) (col "low" f) (col "close" f))) NaN))
      by (intro j; apply (dmi_di_within _ _ j n); lens).
    assert (D2 : forall j, within 0 100 (nth j (dmi_di (minus_dm (col "high" f) (col "low" f)) (true_range_nan (col "high" f) (col "low" f) (col "close" f))) NaN))
      by (intro j; apply (dmi_di_within _ _ j n); lens).
    assert (R : forall s, within 0 100 (nth k s NaN) -> within 0 100 (nth k (sround 4 s) NaN)).
    { intros s X. unfold sround, smap. change NaN with (nround 4 NaN). rewrite map_nth. apply within_round. exact X. }
    set (pdi := dmi_di (plus_dm (col "high" f) (col "low" f)) (true_range_nan (col "high" f) (col "low" f) (col "close" f))) in *.
    set (mdi := dmi_di (minus_dm (col "high" f) (col "low" f)) (true_range_nan (col "high" f) (col "low" f) (col "close" f))) in *.
    assert (LP : List.length pdi = n) by (subst pdi; lens). assert (LM : List.length mdi = n) by (subst mdi; lens).
    assert (X : forall j, within 0 100 (nth j (dmi_dx pdi mdi) NaN)) by (intro j; apply (dmi_dx_within _ _ j n); auto).
    assert (Z : forall j, (j < 14)%nat -> nth j (dmi_dx pdi mdi) NaN = NaN).
    { intros j J. destruct (Nat.lt_ge_cases j n) as [L|L].
      - unfold dmi_dx, sdiv, scale, sabs, ssub, sadd. cell. replace (nth j pdi NaN) with NaN; [reflexivity|]. symmetry. subst pdi. apply (dmi_di_missing _ _ j n); [lens|lens|exact J].
      - apply nth_overflow. rewrite (ln_dmi_dx pdi mdi n); auto. }
    pose proof (dmi_adx_within _ X Z) as AX.
    cbn [In] in N. destruct N as [<-|[<-|[<-|[<-|[<-|[]]]]]]; shown V; apply R.
    - apply D1. - apply D2. - apply X. - apply (Forall_nth_NaN (within 0 100)); auto.
    - apply (dmi_adxr_within _ k n); [lens|]. intro j. apply (Forall_nth_NaN (within 0 100)); auto.
  Qed.
  Lemma uo_shown k : constructed cUO -> proper_days raw -> unfilled ["high"; "low"; "close"] b raw ->
    within 0 100 (shown_at "uosc" k).
  Proof. intros H [P1 P2] U. look f V VV. shown V. apply uo_range; auto; collen V; ordered W V. Qed.
  Lemma swi_shown k : constructed cSWI -> within (-100) 100 (shown_at "swi" k).
  Proof. intro H. look f V VV. shown V. apply swi_range; collen V. Qed.
  Lemma cmf_shown p k : constructed (cCMF p) -> proper_days raw -> no_negative "volume" raw ->
    unfilled ["close"; "volume"; "high"; "low"] b raw -> within (-1) 1 (shown_at "cmf" k).
  Proof.
    intros H [P1 P2] N U. look f V VV. shown V. apply cmf_range; auto; collen V; ordered W V.
    intro j. apply (view_nonneg W V); auto. req.
  Qed.
  Lemma ri_shown r s k : constructed (cRI r s) -> within 0 100 (shown_at "ri" k).
  Proof. intro H. look f V VV. shown V. apply ri_within; try apply VV; collen V. Qed.
  Lemma rvi_shown p k : constructed (cRVI p) -> good_sqrt o -> within 0 100 (shown_at "rvi" k).
  Proof. intros H G. look f V VV. shown V. apply rvi_within; auto; collen V. Qed.
  Lemma proj_shown p k : constructed (cPROJ p) -> proper_days raw -> complete ["high"; "low"; "close"] raw ->
    decimals 4 "close" raw ->
    within 0 100 (shown_at "posc" k) /\ within 0 100 (shown_at "trigger_line" k).
  Proof.
    intros H [P1 P2] C D. look f V VV. pose proof (@complete_unfilled raw b _ C) as U. 
    assert (FH : col "high" (fill_missing f) = col "high" f) by (apply (view_filled W V); auto; req).
    assert (FL : col "low" (fill_missing f) = col "low" f) by (apply (view_filled W V); auto; req).
    split; shown V; rewrite FH, FL; apply proj_within; auto; collen V; ordered W V; intro j; apply (view_decimals W V); auto; req.
  Qed.
End Ranges.
