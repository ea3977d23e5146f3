(** * PropsRange: the documented ranges of the bounded indicators.

    [cell_at name k (get_ti_data ob)] is the value of column [name] on the k-th day
    of getTiData; [within lo hi x] says x is missing or a finite number from lo to hi.
    Unless a hypothesis says otherwise the data may contain missing and infinite
    cells.  [constructed c raw b ob]: the constructor call succeeds and returns ob. *)
From Coq Require Import ZArith QArith Qcanon Bool List String PeanoNat Lia.
From Verif Require Import Num NumFacts Pandas Sim Frame FrameSpec Ind Signal Api IndSpec ApiSpec RangeSpec RangeApi PropsApi.
Import ListNotations.
Open Scope list_scope. Open Scope string_scope.

(** strictly between: for the concrete cases *)
Definition inside (lo hi : Z) (x : num) : bool :=
  match x with Fin q => qltb (zq lo) q && qltb q (zq hi) | _ => false end.
Definition outside (lo hi : Z) (x : num) : bool :=
  match x with Fin q => qltb q (zq lo) || qltb (zq hi) q | PInf | NInf => true | NaN => false end.
Definition value (c : ctor) (raw : rawframe) (b : bool) (name : string) (k : nat) : num :=
  cell_at name k (get_ti_data (the (made ora0 c raw b))).
Lemma outside_not_within lo hi x : outside lo hi x = true -> ~ within lo hi x.
Proof.
  intros H [->|(q & -> & A & B)]; [discriminate|]. cbn in H. apply orb_true_iff in H as [H|H]; apply qltb_iff in H;
    eapply Qclt_not_le; eauto.
Qed.
(** rows of high, low, close *)
Definition hlc (rs : list (num * num * num)) : rawframe :=
  mkRaw true [LStr "high"; LStr "low"; LStr "close"] [true; true; true]
    (map (fun p => let '(k, (h, l, c)) := p in (Z.of_nat k, [h; l; c])) (combine (seq 1 (List.length rs)) rs)).
Lemma hlc_wf rs : wf_raw (hlc rs).
Proof.
  split; [reflexivity|]. intros r H. cbn in H. apply in_map_iff in H as ([k [[h l] c]] & <- & _). reflexivity.
Qed.
Ltac in_rows :=
  repeat match goal with
  | H : In _ _ |- _ => cbn in H
  | H : _ \/ _ |- _ => destruct H as [H|H]
  | H : False |- _ => contradiction
  | H : (_, _) = _ |- _ => subst
  end.
Ltac proper_rows :=
  split; intros r H; in_rows; subst; vm_compute; (left; reflexivity) || (right; left; reflexivity) || (right; right; reflexivity).

(** ** C27 RSI *)
Theorem C27_rsi_range o p raw b ob k : wf_raw raw ->
  snd (construct o (cRSI p) (RFrame raw) (VBool b)) = Ok ob ->
  within 0 100 (cell_at "rsi" k (get_ti_data ob)).
Proof. exact (fun W => rsi_shown o raw b ob W p k). Qed.
Print Assumptions C27_rsi_range.
Example C27_case : inside 0 100 (value (cRSI (VInt 5)) (market 12) true "rsi" 11) = true.
Proof. vm_compute. reflexivity. Qed.
Example C27_case_no_losses : value (cRSI (VInt 2)) (closing [(1, F 1); (2, F 2); (3, F 3)]%Z) true "rsi" 2 = F 100.
Proof. vm_compute. f_equal. apply Qc_is_canon. reflexivity. Qed.

(** ** C28 RMI *)
Theorem C28_rmi_range o p m raw b ob k : wf_raw raw ->
  snd (construct o (cRMI p m) (RFrame raw) (VBool b)) = Ok ob ->
  within 0 100 (cell_at "rmi" k (get_ti_data ob)).
Proof. exact (fun W => rmi_shown o raw b ob W p m k). Qed.
Print Assumptions C28_rmi_range.
Example C28_case : inside 0 100 (value (cRMI (VInt 4) (VInt 2)) (market 12) true "rmi" 11) = true.
Proof. vm_compute. reflexivity. Qed.
(** with no losses in the window the value is missing, where the RSI says 100 *)
Example C28_case_no_losses : value (cRMI (VInt 2) (VInt 1)) (closing [(1, F 1); (2, F 2); (3, F 3)]%Z) true "rmi" 2 = NaN.
Proof. vm_compute. reflexivity. Qed.

(** ** C29 CMO *)
Theorem C29_cmo_range o p raw b ob k : wf_raw raw ->
  snd (construct o (cCMO p) (RFrame raw) (VBool b)) = Ok ob ->
  within (-100) 100 (cell_at "cmo" k (get_ti_data ob)).
Proof. exact (fun W => cmo_shown o raw b ob W p k). Qed.
Print Assumptions C29_cmo_range.
Example C29_case : inside (-100) 100 (value (cCMO (VInt 5)) (market 12) true "cmo" 11) = true.
Proof. vm_compute. reflexivity. Qed.

(** ** C30 IMI *)
Theorem C30_imi_range o p raw b ob k : wf_raw raw ->
  snd (construct o (cIMI p) (RFrame raw) (VBool b)) = Ok ob ->
  within 0 100 (cell_at "imi" k (get_ti_data ob)).
Proof. exact (fun W => imi_shown o raw b ob W p k). Qed.
Print Assumptions C30_imi_range.
Definition open_close : rawframe := mkRaw true [LStr "OPEN"; LStr "Close"] [true; true]
  [(3%Z, [F 7; F 9]); (1%Z, [F 5; F 4]); (2%Z, [F 4; F 7])].
Example C30_case : inside 0 100 (value (cIMI (VInt 3)) open_close true "imi" 2) = true.
Proof. vm_compute. reflexivity. Qed.

(** ** C31 Stochastic oscillator *)
Theorem C31_stochastic_range o kp s d m raw b ob k : wf_raw raw ->
  snd (construct o (cSO kp s d m) (RFrame raw) (VBool b)) = Ok ob -> good_window o ->
  proper_days raw -> unfilled ["high"; "low"; "close"] b raw ->
  within 0 100 (cell_at "%K" k (get_ti_data ob)) /\ within 0 100 (cell_at "%D" k (get_ti_data ob)).
Proof. exact (fun W => so_shown o raw b ob W kp s d m k). Qed.
Print Assumptions C31_stochastic_range.
Lemma ora0_window : good_window ora0.
Proof.
  intro n. cbn. split; [apply repeat_length|]. intros w I. apply repeat_spec in I as ->. reflexivity.
Qed.
Lemma market_proper n : proper_days (market n).
Proof.
  split; intros r H; cbn in H; apply in_map_iff in H as (k & <- & _); right; right; unfold raw_cell; cbn -[Z.modulo Z.mul Z.add];
    (unfold nleb; cbn -[Z.modulo Z.mul Z.add]; apply orb_true_iff; left; apply qltb_iff; unfold Qclt;
     rewrite !this_Q2Qc; rewrite <- Zlt_Qlt; lia).
Qed.
Lemma market_full n : complete ["open"; "high"; "low"; "close"; "volume"] (market n).
Proof.
  intros c r I H. cbn in H. apply in_map_iff in H as (k & <- & _). cbn [In] in I.
  destruct I as [<-|[<-|[<-|[<-|[<-|[]]]]]]; reflexivity.
Qed.
Example C31_case : proper_days (market 12) /\ complete ["open"; "high"; "low"; "close"; "volume"] (market 12) /\ good_window ora0 /\
  inside 0 100 (value (cSO (VInt 5) (VInt 3) (VInt 2) (VStr "simple")) (market 12) true "%K" 11) = true /\
  inside 0 100 (value (cSO (VInt 5) (VInt 1) (VInt 2) (VStr "exponential")) (market 12) true "%D" 11) = true.
Proof.
  split; [apply market_proper|]. split; [apply market_full|]. split; [apply ora0_window|]. split; vm_compute; reflexivity.
Qed.
(** filling a missing low with the low of an earlier day breaks the range *)
Definition missing_low := hlc [(F 12, F 10, F 11); (F 6, NaN, F 5)].
Theorem C31_filled_refuted : exists o kp s d m raw ob k, wf_raw raw /\
  snd (construct o (cSO kp s d m) (RFrame raw) (VBool true)) = Ok ob /\ good_window o /\ proper_days raw /\
  ~ within 0 100 (cell_at "%K" k (get_ti_data ob)).
Proof.
  exists ora0, (VInt 1), (VInt 1), (VInt 1), (VStr "simple"), missing_low,
    (the (made ora0 (cSO (VInt 1) (VInt 1) (VInt 1) (VStr "simple")) missing_low true)), 1%nat.
  split; [apply hlc_wf|]. split; [vm_compute; reflexivity|]. split; [apply ora0_window|]. split; [proper_rows|].
  apply outside_not_within. vm_compute. reflexivity.
Qed.
Print Assumptions C31_filled_refuted.

(** ** C32 Williams %R *)
Theorem C32_williams_range o p raw b ob k : wf_raw raw ->
  snd (construct o (cWR p) (RFrame raw) (VBool b)) = Ok ob ->
  proper_days raw -> unfilled ["high"; "low"; "close"] b raw ->
  within (-100) 0 (cell_at "wr" k (get_ti_data ob)).
Proof. exact (fun W => wr_shown o raw b ob W p k). Qed.
Print Assumptions C32_williams_range.
Example C32_case : proper_days (market 12) /\ complete ["open"; "high"; "low"; "close"; "volume"] (market 12) /\
  inside (-100) 0 (value (cWR (VInt 5)) (market 12) true "wr" 11) = true.
Proof. split; [apply market_proper|]. split; [apply market_full|]. vm_compute. reflexivity. Qed.
Theorem C32_filled_refuted : exists o p raw ob k, wf_raw raw /\
  snd (construct o (cWR p) (RFrame raw) (VBool true)) = Ok ob /\ proper_days raw /\
  ~ within (-100) 0 (cell_at "wr" k (get_ti_data ob)).
Proof.
  exists ora0, (VInt 1), missing_low, (the (made ora0 (cWR (VInt 1)) missing_low true)), 1%nat.
  split; [apply hlc_wf|]. split; [vm_compute; reflexivity|]. split; [proper_rows|].
  apply outside_not_within. vm_compute. reflexivity.
Qed.
Print Assumptions C32_filled_refuted.

(** ** C33 Stochastic momentum index *)
Theorem C33_smi_range o p s d raw b ob k : wf_raw raw ->
  snd (construct o (cSMI p s d) (RFrame raw) (VBool b)) = Ok ob ->
  proper_days raw -> complete ["high"; "low"; "close"] raw ->
  within (-100) 100 (cell_at "smi" k (get_ti_data ob)).
Proof. exact (fun W => smi_shown o raw b ob W p s d k). Qed.
Print Assumptions C33_smi_range.
Example C33_case : proper_days (market 12) /\ complete ["open"; "high"; "low"; "close"; "volume"] (market 12) /\
  inside (-100) 100 (value (cSMI (VInt 4) (VInt 3) (VInt 2)) (market 12) true "smi" 11) = true.
Proof. split; [apply market_proper|]. split; [apply market_full|]. vm_compute. reflexivity. Qed.
(** a missing close (fill_missing_values=False): the distance is carried over while the
    day's range is not *)
Definition missing_close := hlc [(F 11, F 9, F 11); (F 10, F 9, NaN)].
Theorem C33_missing_close_refuted : exists o p s d raw ob k, wf_raw raw /\
  snd (construct o (cSMI p s d) (RFrame raw) (VBool false)) = Ok ob /\ proper_days raw /\
  ~ within (-100) 100 (cell_at "smi" k (get_ti_data ob)).
Proof.
  exists ora0, (VInt 1), (VInt 1), (VInt 1), missing_close,
    (the (made ora0 (cSMI (VInt 1) (VInt 1) (VInt 1)) missing_close false)), 1%nat.
  split; [apply hlc_wf|]. split; [vm_compute; reflexivity|]. split; [proper_rows|].
  apply outside_not_within. vm_compute. reflexivity.
Qed.
Print Assumptions C33_missing_close_refuted.

(** ** C34 Vertical horizontal filter *)
Theorem C34_vhf_range o p raw b ob k : wf_raw raw ->
  snd (construct o (cVHF p) (RFrame raw) (VBool b)) = Ok ob ->
  within 0 1 (cell_at "vhf" k (get_ti_data ob)).
Proof. exact (fun W => vhf_shown o raw b ob W p k). Qed.
Print Assumptions C34_vhf_range.
Example C34_case : inside 0 1 (value (cVHF (VInt 5)) (market 12) true "vhf" 11) = true.
Proof. vm_compute. reflexivity. Qed.

(** ** C35 Directional movement index *)
Theorem C35_dmi_range o raw b ob k name : wf_raw raw ->
  snd (construct o cDMI (RFrame raw) (VBool b)) = Ok ob ->
  proper_days raw -> complete ["high"; "low"; "close"] raw ->
  In name ["+di"; "-di"; "dx"; "adx"; "adxr"] -> within 0 100 (cell_at name k (get_ti_data ob)).
Proof. exact (fun W => dmi_shown o raw b ob W k name). Qed.
Print Assumptions C35_dmi_range.
Definition trending (n : nat) : rawframe :=
  hlc (map (fun k => let x := Z.of_nat k in (F (x + 1), F (x - 1), F x)) (seq 1 n)).
Example C35_case : proper_days (market 28) /\ complete ["open"; "high"; "low"; "close"; "volume"] (market 28) /\
  forallb (fun n => inside 0 100 (value cDMI (market 28) true n 15)) ["+di"; "-di"; "dx"] = true /\
  inside 0 100 (value cDMI (market 28) true "adx" 27) = true /\
  inside 99 101 (value cDMI (trending 41) true "adxr" 40) = true.
Proof. split; [apply market_proper|]. split; [apply market_full|]. repeat split; vm_compute; reflexivity. Qed.
(** closes missing at the start (fill_missing_values=False): true ranges are left out of the
    first sum, directional movements are not *)
Definition late_closes := hlc (map (fun k => let x := F (Z.of_nat k) in (x, x, if (k <? 13)%nat then NaN else x)) (seq 0 28)).
Theorem C35_missing_close_refuted : exists o raw ob k, wf_raw raw /\
  snd (construct o cDMI (RFrame raw) (VBool false)) = Ok ob /\ proper_days raw /\
  ~ within 0 100 (cell_at "+di" k (get_ti_data ob)).
Proof.
  exists ora0, late_closes, (the (made ora0 cDMI late_closes false)), 14%nat.
  split; [apply hlc_wf|]. split; [vm_compute; reflexivity|].
  split; [|apply outside_not_within; vm_compute; reflexivity].
  split; intros r H; unfold late_closes, hlc in H; cbn [r_rows] in H; apply in_map_iff in H as ([k [[h l] c]] & <- & I);
    rewrite map_length, seq_length in I; cbn [seq combine map] in I; in_rows; 
    repeat match goal with H : (_, _) = (_, _) |- _ => injection H as <- <- <- <- end;
    vm_compute; (left; reflexivity) || (right; left; reflexivity) || (right; right; reflexivity).
Qed.
Print Assumptions C35_missing_close_refuted.

(** ** C36 Ultimate oscillator *)
Theorem C36_uo_range o raw b ob k : wf_raw raw ->
  snd (construct o cUO (RFrame raw) (VBool b)) = Ok ob ->
  proper_days raw -> unfilled ["high"; "low"; "close"] b raw ->
  within 0 100 (cell_at "uosc" k (get_ti_data ob)).
Proof. exact (fun W => uo_shown o raw b ob W k). Qed.
Print Assumptions C36_uo_range.
Example C36_case : proper_days (market 30) /\ complete ["open"; "high"; "low"; "close"; "volume"] (market 30) /\
  inside 0 100 (value cUO (market 30) true "uosc" 29) = true.
Proof. split; [apply market_proper|]. split; [apply market_full|]. vm_compute. reflexivity. Qed.

(** ** C37 Swing index *)
Theorem C37_swing_range o raw b ob k : wf_raw raw ->
  snd (construct o cSWI (RFrame raw) (VBool b)) = Ok ob ->
  within (-100) 100 (cell_at "swi" k (get_ti_data ob)).
Proof. exact (fun W => swi_shown o raw b ob W k). Qed.
Print Assumptions C37_swing_range.
Example C37_case : inside (-100) 100 (value cSWI (market 4) true "swi" 3) = true.
Proof. vm_compute. reflexivity. Qed.

(** ** C38 Chaikin money flow *)
Theorem C38_cmf_range o p raw b ob k : wf_raw raw ->
  snd (construct o (cCMF p) (RFrame raw) (VBool b)) = Ok ob ->
  proper_days raw -> no_negative "volume" raw -> unfilled ["close"; "volume"; "high"; "low"] b raw ->
  within (-1) 1 (cell_at "cmf" k (get_ti_data ob)).
Proof. exact (fun W => cmf_shown o raw b ob W p k). Qed.
Print Assumptions C38_cmf_range.
Lemma market_volume n : no_negative "volume" (market n).
Proof.
  intros r H; cbn in H; apply in_map_iff in H as (k & <- & _). right; right; unfold raw_cell; cbn -[Z.modulo Z.mul Z.add].
  unfold nleb; cbn -[Z.modulo Z.mul Z.add]; apply orb_true_iff; left; apply qltb_iff; unfold Qclt.
  rewrite !this_Q2Qc; rewrite <- Zlt_Qlt. pose proof (Z.mod_pos_bound (Z.of_nat k * 5) 7). lia.
Qed.
Example C38_case : proper_days (market 6) /\ no_negative "volume" (market 6) /\ complete ["open"; "high"; "low"; "close"; "volume"] (market 6) /\
  inside (-1) 1 (value (cCMF (VInt 5)) (market 6) true "cmf" 5) = true.
Proof. split; [apply market_proper|]. split; [apply market_volume|]. split; [apply market_full|]. vm_compute. reflexivity. Qed.

(** ** C39 Range indicator *)
Theorem C39_range_indicator_range o r s raw b ob k : wf_raw raw ->
  snd (construct o (cRI r s) (RFrame raw) (VBool b)) = Ok ob ->
  within 0 100 (cell_at "ri" k (get_ti_data ob)).
Proof. exact (fun W => ri_shown o raw b ob W r s k). Qed.
Print Assumptions C39_range_indicator_range.
Example C39_case : inside 0 100 (value (cRI (VInt 4) (VInt 3)) (market 12) true "ri" 11) = true.
Proof. vm_compute. reflexivity. Qed.

(** ** C40 Relative volatility index *)
Theorem C40_rvi_range o p raw b ob k : wf_raw raw ->
  snd (construct o (cRVI p) (RFrame raw) (VBool b)) = Ok ob -> good_sqrt o ->
  within 0 100 (cell_at "rvi" k (get_ti_data ob)).
Proof. exact (fun W => rvi_shown o raw b ob W p k). Qed.
Print Assumptions C40_rvi_range.
Example C40_case : good_sqrt ora0 /\ inside 0 100 (value (cRVI (VInt 4)) (market 16) true "rvi" 15) = true.
Proof. split; [intros q Q; exact Q|]. vm_compute. reflexivity. Qed.

(** ** C41 Projection oscillator *)
Theorem C41_projection_range o p raw b ob k : wf_raw raw ->
  snd (construct o (cPROJ p) (RFrame raw) (VBool b)) = Ok ob ->
  proper_days raw -> complete ["high"; "low"; "close"] raw -> decimals 4 "close" raw ->
  within 0 100 (cell_at "posc" k (get_ti_data ob)) /\ within 0 100 (cell_at "trigger_line" k (get_ti_data ob)).
Proof. exact (fun W => proj_shown o raw b ob W p k). Qed.
Print Assumptions C41_projection_range.
Lemma market_decimals n : decimals 4 "close" (market n).
Proof.
  intros r q H E; cbn in H; apply in_map_iff in H as (k & <- & _). unfold raw_cell in E; cbn -[Z.modulo Z.mul Z.add] in E.
  apply Fin_inj in E as <-. apply has_decimals_int.
Qed.
Example C41_case : proper_days (market 12) /\ complete ["open"; "high"; "low"; "close"; "volume"] (market 12) /\ decimals 4 "close" (market 12) /\
  inside 0 100 (value (cPROJ (VInt 4)) (market 12) true "posc" 11) = true /\
  inside 0 100 (value (cPROJ (VInt 4)) (market 12) true "trigger_line" 11) = true.
Proof.
  split; [apply market_proper|]. split; [apply market_full|]. split; [apply market_decimals|]. split; vm_compute; reflexivity.
Qed.
(** the bands are rounded to four decimals, the close is not *)
Definition fine_close := hlc [(D 100004 100000, D 9999 10000, D 100004 100000); (D 100004 100000, D 9999 10000, D 100004 100000)].
Theorem C41_fine_prices_refuted : exists o p raw ob k, wf_raw raw /\
  snd (construct o (cPROJ p) (RFrame raw) (VBool true)) = Ok ob /\ proper_days raw /\ complete ["high"; "low"; "close"] raw /\
  ~ within 0 100 (cell_at "posc" k (get_ti_data ob)).
Proof.
  exists ora0, (VInt 2), fine_close, (the (made ora0 (cPROJ (VInt 2)) fine_close true)), 1%nat.
  split; [apply hlc_wf|]. split; [vm_compute; reflexivity|]. split; [proper_rows|].
  split; [intros c r I H; in_rows; subst; reflexivity|].
  apply outside_not_within. vm_compute. reflexivity.
Qed.
Print Assumptions C41_fine_prices_refuted.
