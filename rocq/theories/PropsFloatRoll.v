(** * PropsFloatRoll: C96, rolling means and sums in binary64 (FloatRoll.v) against exact arithmetic (Ind.v). *)
From Coq Require Import ZArith QArith Qcanon Qreals Reals Bool List String PeanoNat Lia.
From Flocq Require Import Core IEEE754.BinarySingleNaN.
From Verif Require Import FloatSim FloatInd FloatRoll.
From Verif Require Import Num Sim Frame FrameSpec Ind Api ApiSpec RangeSpec ValueSpec FormulaSpec.
From Verif Require Import FloatSpec FloatAccSpec FloatRollSpec FloatRollApi.
From Verif Require Import PropsApi PropsRange PropsValue PropsCumul PropsFormula FloatCases FloatAccCases FloatRollCases.
Import ListNotations.
Open Scope list_scope. Open Scope string_scope.

(** ** C96 the published float is the exact average to the fourth decimal *)
Theorem C96_simple :
  forall o raw b ob, wf_raw raw -> forall c n k, (k < n)%nat -> known (given "close" ob) k (prices 1 c) ->
  forall p, snd (construct o (cMA p (VStr "simple")) (RFrame raw) (VBool b)) = Ok ob -> let w := nat_arg p in steady c n ->
  let v := from (w - 1) k (Fin (mean_last (prices 1 c) w k)) in
  shown "ma-simple" ob k = rn v /\ tracks (cell (fsma w (column 1 c n)) k) v.
Proof. exact sma_accuracy. Qed.
Print Assumptions C96_simple.
Theorem C96_middle_band :
  forall o raw b ob, wf_raw raw -> forall c n k, (k < n)%nat -> known (given "close" ob) k (prices 1 c) ->
  forall p sd, snd (construct o (cBB p sd) (RFrame raw) (VBool b)) = Ok ob -> let w := nat_arg p in steady c n ->
  let v := from (w - 1) k (Fin (mean_last (prices 1 c) w k)) in
  shown "middle_band" ob k = rn v /\ tracks (cell (fsma w (column 1 c n)) k) v.
Proof. exact middle_accuracy. Qed.
Print Assumptions C96_middle_band.
Theorem C96_triangular :
  forall o raw b ob, wf_raw raw -> forall c n k, (k < n)%nat -> known (given "close" ob) k (prices 1 c) ->
  forall p, snd (construct o (cMA p (VStr "triangular")) (RFrame raw) (VBool b)) = Ok ob -> let w := nat_arg p in steady c n ->
  let v := from (2 * (w - 1)) k (Fin (mean_last (mean_last (prices 1 c) w) w k)) in
  shown "ma-triangular" ob k = rn v /\ tracks (cell (ftma w (column 1 c n)) k) v.
Proof. exact tma_accuracy. Qed.
Print Assumptions C96_triangular.
Theorem C96_detrended_price :
  forall o raw b ob, wf_raw raw -> forall c n k, (k < n)%nat -> known (given "close" ob) k (prices 1 c) ->
  forall p, snd (construct o (cDPO p) (RFrame raw) (VBool b)) = Ok ob -> let w := nat_arg p in let d := S (w / 2) in (d <= k)%nat -> steady c n ->
  let v := from (w - 1 - d) (k - d) (Fin (prices 1 c (k - d)%nat - mean_last (prices 1 c) w k)%Qc) in
  shown "dpo" ob (k - d) = rn v /\ tracks (cell (fdpo w (column 1 c n)) (k - d)) v.
Proof. exact dpo_accuracy. Qed.
Print Assumptions C96_detrended_price.
Theorem C96_qstick :
  forall o raw b ob, wf_raw raw -> forall c n k, (k < n)%nat -> known (given "close" ob) k (prices 1 c) ->
  forall op p, known (given "open" ob) k (prices 1 op) -> snd (construct o (cQS p) (RFrame raw) (VBool b)) = Ok ob -> let w := nat_arg p in steady c n -> steady op n ->
  let v := from (w - 1) k (Fin (mean_last (fun i => prices 1 c i - prices 1 op i)%Qc w k)) in
  shown "qstick" ob k = rn v /\ tracks (cell (fqstick w (column 1 op n) (column 1 c n)) k) v.
Proof. exact qstick_accuracy. Qed.
Print Assumptions C96_qstick.
(** volumes are whole numbers: their running sums are exact, however long the history *)
Theorem C96_volume_oscillator :
  forall o raw b ob, wf_raw raw -> forall v n k, (k < n)%nat -> known (given "volume" ob) k (fun i => zq (v i)) ->
  forall p q, snd (construct o (cVOSC p q) (RFrame raw) (VBool b)) = Ok ob -> let long := nat_arg p in let short := nat_arg q in
  (Z.of_nat long <= 2 ^ 20)%Z -> (forall i, (i < n)%nat -> (0 <= v i <= 2 ^ 32)%Z) ->
  let e := from (long - 1) k (Fin (mean_last (fun i => zq (v i)) short k - mean_last (fun i => zq (v i)) long k)%Qc) in
  shown "vosc" ob k = rn e /\ tracks (cell (fvosc long short (whole v n)) k) e.
Proof. exact vosc_accuracy. Qed.
Print Assumptions C96_volume_oscillator.
Example C96_average_case : let C := column 1 (counts closes_ten) 10 in let v i := nth i volumes_ten 0%Z in
  steady (counts closes_ten) 10 /\ steady (counts opens_ten) 10 /\
  known (given "close" (the (made ora0 (cQS (VInt 3)) ten true))) 9 (prices 1 (counts closes_ten)) /\ known (given "open" (the (made ora0 (cQS (VInt 3)) ten true))) 9 (prices 1 (counts opens_ten)) /\
  known (given "volume" (the (made ora0 (cVOSC (VInt 3) (VInt 2)) ten true))) 9 (fun i => zq (v i)) /\
  equals (value (cMA (VInt 3) (VStr "simple")) ten true "ma-simple" 8) 133333 10000 = true /\ bits (cell (fsma 3 C) 8) = bits (dec4 133333) /\
  equals (value (cBB (VInt 3) (VInt 2)) ten true "middle_band" 8) 133333 10000 = true /\
  equals (value (cMA (VInt 3) (VStr "triangular")) ten true "ma-triangular" 9) 133333 10000 = true /\ bits (cell (ftma 3 C) 9) = bits (dec4 133333) /\
  equals (value (cDPO (VInt 3)) ten true "dpo" 6) (-23333) 10000 = true /\ bits (cell (fdpo 3 C) 6) = bits (dec4 (-23333)) /\
  equals (value (cQS (VInt 3)) ten true "qstick" 8) 6667 10000 = true /\ bits (cell (fqstick 3 (column 1 (counts opens_ten) 10) C) 8) = bits (dec4 6667) /\
  equals (value (cVOSC (VInt 3) (VInt 2)) ten true "vosc" 8) 8333 10000 = true /\ bits (cell (fvosc 3 2 (whole v 10)) 8) = bits (dec4 8333).
Proof.
  cbv zeta. split; [apply whole_steady; vm_compute; reflexivity|]. split; [apply whole_steady; vm_compute; reflexivity|].
  split; [apply counts_known; [vm_compute; reflexivity|cbn; lia]|]. split; [apply counts_known; [vm_compute; reflexivity|cbn; lia]|].
  split; [apply (reads_known "volume" _ volumes_ten); [vm_compute; reflexivity|cbn; lia]|].
  vm_compute. repeat split.
Qed.

(** ** C96 the average lies among the prices of its window *)
Theorem C96_among_prices : forall w c n k lo hi, (0 < w)%nat -> steady c n -> (w - 1 <= k < n)%nat -> recent w k lo -> recent w k hi ->
  (forall i, recent w k i -> (c lo <= c i <= c hi)%Z) ->
  between (val (dec4 (c lo))) (val (dec4 (c hi))) (cell (fsma w (column 1 c n)) k).
Proof. exact sma_among. Qed.
Print Assumptions C96_among_prices.
Example C96_among_case : recent 3 8 6 /\ recent 3 8 7 /\ forall i, recent 3 8 i -> (counts closes_ten 6 <= counts closes_ten i <= counts closes_ten 7)%Z.
Proof. unfold recent. split; [lia|]. split; [lia|]. intros i I. assert (E : i = 6%nat \/ i = 7%nat \/ i = 8%nat) by lia. destruct E as [-> | [-> | ->]]; vm_compute; split; discriminate. Qed.

(** ** C96 prices of any size: the bound on the history is needed *)
Theorem C96_any_size_refuted : exists c n w k, (0 < w)%nat /\ (w - 1 <= k < n)%nat /\ (forall i, (0 < c i < 2 ^ 60)%Z) /\
  ~ tracks (cell (fsma w (column 1 c n)) k) (Fin (mean_last (prices 1 c) w k)).
Proof.
  exists spike, 6%nat, 2%nat, 5%nat. split; [lia|]. split; [lia|]. split; [|exact spike_off].
  intro i. do 6 (destruct i as [|i]; [vm_compute; auto|]). destruct i; vm_compute; auto.
Qed.
Print Assumptions C96_any_size_refuted.
(** but a flat window gives exactly its price, and prices that are not negative give no negative average *)
Theorem C96_flat : forall w s k, (0 < w)%nat -> (w - 1 <= k < List.length s)%nat -> (forall i, (i < List.length s)%nat -> is_finite (cell s i) = true) ->
  (forall i, recent w k i -> val (cell s i) = val (cell s k)) -> cell (froll_mean w s) k = cell s k.
Proof. exact roll_flat. Qed.
Print Assumptions C96_flat.
Theorem C96_not_below_zero : forall w s k, (0 < w)%nat -> (w - 1 <= k < List.length s)%nat -> (forall i, (i < List.length s)%nat -> is_finite (cell s i) = true) ->
  (forall i, recent w k i -> Bsign (cell s i) = false) -> fltb (cell (froll_mean w s) k) f0 = false.
Proof. exact roll_not_below. Qed.
Print Assumptions C96_not_below_zero.
Example C96_spike_case : let s := map dec4 [185200000000000000; 1370; 1370]%Z in
  (forall i, (i < 3)%nat -> is_finite (cell s i) = true /\ Bsign (cell s i) = false) /\ (forall i, recent 2 2 i -> val (cell s i) = val (cell s 2)) /\
  bits (cell (froll_mean 2 s) 2) = bits (dec4 1370) /\ bits (cell (froll_mean 2 (map dec4 [185200000000000000; 1370; 1371]%Z)) 2) <> bits (dec4 1370).
Proof.
  cbv zeta. split; [intros i I; do 3 (destruct i as [|i]; [vm_compute; auto|]); lia|].
  split; [intros i I; unfold recent in I; assert (E : i = 1%nat \/ i = 2%nat) by lia; destruct E as [-> | ->]; reflexivity|].
  split; [vm_compute; reflexivity|vm_compute; discriminate].
Qed.
