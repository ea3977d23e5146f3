(** * PropsFloatSig: theorems about the signals in IEEE-754 binary64. *)
From Coq Require Import ZArith QArith Qcanon Qreals Reals Bool List String PeanoNat Lia Lra.
From Flocq Require Import Core IEEE754.BinarySingleNaN.
From Verif Require Import Num NumFacts Pandas Sim Frame FrameSpec Ind Signal Api IndSpec ApiSpec RangeSpec ValueSpec FormulaSpec SignalSpec SignalApi PropsApi PropsFormula PropsSignal.
From Verif Require Import FloatSim FloatSpec FloatAccSpec FloatInd FloatAccCases FloatEwm FloatEwmSpec FloatEwmCases FloatRoll FloatRollSpec FloatRollCases FloatSignal FloatSignalSpec FloatSignalFacts FloatSignalApi FloatSignalCases.
Import ListNotations.
Open Scope list_scope. Open Scope string_scope.
Notation price := SignalSpec.price.

(** ** C97 a signal differs only when a comparison is close *)
Theorem C97_same_signal : forall o raw b st inp ti, f_rows inp = days_given st -> f_rows ti = days_shown st ->
  forall c n l, working o c raw b st -> compared c = Some (n, l) ->
  ((n <= days_shown st)%nat -> forall p q, In (p, q) l -> decided st inp ti p q) ->
  fsignal_of (ob_ind st) inp ti = Some (get_ti_signal st).
Proof. exact @same_signal. Qed.
Print Assumptions C97_same_signal.
(** ** C97 the indicators whose floats are known *)
Theorem C97_simple : forall o raw b st c N, (days_shown st <= N)%nat ->
  forall p, working o (cMA p (VStr "simple")) raw b st -> holds "close" st 1 c -> steady c N ->
  apart_days st 1 1 (price "close" st) (ago "ma-simple" st) -> let n := days_shown st in let C := column 1 c N in
  fsignal_of (ob_ind st) (table n [("close", C)]) (table n [("ma-simple", fsma (nat_arg p) C)]) = Some (get_ti_signal st).
Proof. exact @simple_signal. Qed.
Print Assumptions C97_simple.
Theorem C97_exponential : forall o raw b st c N, (days_shown st <= N)%nat ->
  forall p, working o (cMA p (VStr "exponential")) raw b st -> holds "close" st 1 c -> moderate (nat_arg p) c N ->
  apart_days st 1 1 (price "close" st) (ago "ma-exponential" st) -> let n := days_shown st in let C := column 1 c N in
  fsignal_of (ob_ind st) (table n [("close", C)]) (table n [("ma-exponential", fema (nat_arg p) C)]) = Some (get_ti_signal st).
Proof. exact @exponential_signal. Qed.
Print Assumptions C97_exponential.
Theorem C97_triangular : forall o raw b st c N, (days_shown st <= N)%nat ->
  forall p, working o (cMA p (VStr "triangular")) raw b st -> holds "close" st 1 c -> steady c N ->
  apart_days st 1 1 (price "close" st) (ago "ma-triangular" st) -> let n := days_shown st in let C := column 1 c N in
  fsignal_of (ob_ind st) (table n [("close", C)]) (table n [("ma-triangular", ftma (nat_arg p) C)]) = Some (get_ti_signal st).
Proof. exact @triangular_signal. Qed.
Print Assumptions C97_triangular.
Theorem C97_double_exponential : forall o raw b st c N, (days_shown st <= N)%nat ->
  forall p, working o (cDEMA p) raw b st -> holds "close" st 1 c -> moderate (nat_arg p) c N ->
  apart_days st 1 1 (price "close" st) (ago "dema" st) -> let n := days_shown st in let C := column 1 c N in
  fsignal_of (ob_ind st) (table n [("close", C)]) (table n [("dema", fdema (nat_arg p) C)]) = Some (get_ti_signal st).
Proof. exact @dema_signal_same. Qed.
Print Assumptions C97_double_exponential.
Theorem C97_triple_exponential : forall o raw b st c N, (days_shown st <= N)%nat ->
  forall p, working o (cTEMA p) raw b st -> holds "close" st 1 c -> moderate (nat_arg p) c N ->
  apart_days st 1 1 (price "close" st) (ago "tema" st) -> let n := days_shown st in let C := column 1 c N in
  fsignal_of (ob_ind st) (table n [("close", C)]) (table n [("tema", ftema (nat_arg p) C)]) = Some (get_ti_signal st).
Proof. exact @tema_signal_same. Qed.
Print Assumptions C97_triple_exponential.
Example C97_average_case : let c := season_at close_of in let C := column 1 c 36 in let close k := table (S k) [("close", C)] in
  let s := on_day (cMA (VInt 3) (VStr "simple")) season 3 in let e := on_day (cMA (VInt 3) (VStr "exponential")) season 4 in
  let t := on_day (cMA (VInt 3) (VStr "triangular")) season 4 in let d := on_day (cDEMA (VInt 3)) season 6 in let u := on_day (cTEMA (VInt 3)) season 7 in
  steady c 36 /\ moderate 3 c 36 /\ holds "close" s 1 c /\ holds "close" e 1 c /\ holds "close" t 1 c /\ holds "close" d 1 c /\ holds "close" u 1 c /\
  apart_days s 1 1 (price "close" s) (ago "ma-simple" s) /\ apart_days e 1 1 (price "close" e) (ago "ma-exponential" e) /\
  apart_days t 1 1 (price "close" t) (ago "ma-triangular" t) /\ apart_days d 1 1 (price "close" d) (ago "dema" d) /\ apart_days u 1 1 (price "close" u) (ago "tema" u) /\
  shows (cMA (VInt 3) (VStr "simple")) season [(3, Buy)]%nat = true /\ fsays Buy (fsignal_of (ob_ind s) (close 3%nat) (table 4 [("ma-simple", fsma 3 C)])) = true /\
  shows (cMA (VInt 3) (VStr "exponential")) season [(4, Buy)]%nat = true /\ fsays Buy (fsignal_of (ob_ind e) (close 4%nat) (table 5 [("ma-exponential", fema 3 C)])) = true /\
  shows (cMA (VInt 3) (VStr "triangular")) season [(4, Buy)]%nat = true /\ fsays Buy (fsignal_of (ob_ind t) (close 4%nat) (table 5 [("ma-triangular", ftma 3 C)])) = true /\
  shows (cDEMA (VInt 3)) season [(6, Buy)]%nat = true /\ fsays Buy (fsignal_of (ob_ind d) (close 6%nat) (table 7 [("dema", fdema 3 C)])) = true /\
  shows (cTEMA (VInt 3)) season [(7, Sell)]%nat = true /\ fsays Sell (fsignal_of (ob_ind u) (close 7%nat) (table 8 [("tema", ftema 3 C)])) = true.
Proof.
  cbv zeta. split; [apply whole_steady; vm_compute; reflexivity|]. split; [apply whole_moderate; vm_compute; reflexivity|].
  do 5 (split; [apply holds_of; vm_compute; reflexivity|]). do 5 (split; [apply apart_days_of; vm_compute; reflexivity|]).
  repeat (split; [vm_compute; reflexivity|]). vm_compute. reflexivity.
Qed.
Theorem C97_wilders : forall o raw b st c N, (days_shown st <= N)%nat ->
  forall npsum p, (forall l, added l (npsum l)) -> working o (cWS p) raw b st -> holds "close" st 1 c -> moderate (nat_arg p) c N ->
  apart_days st 2 1 (price "close" st) (ago "ws" st) -> let n := days_shown st in let C := column 1 c N in
  fsignal_of (ob_ind st) (table n [("close", C)]) (mkTable n (fun _ => fws npsum (nat_arg p) C)) = Some (get_ti_signal st).
Proof. exact @wilders_signal. Qed.
Print Assumptions C97_wilders.
Theorem C97_weighted_close : forall o raw b st c N, (days_shown st <= N)%nat ->
  forall t h l, working o cWC raw b st -> holds "close" st t c -> holds "high" st t h -> holds "low" st t l ->
  fits t h N -> fits t l N -> fits t c N -> (forall i, (i < N)%nat -> (l i <= c i <= h i)%Z) ->
  apart_days st 2 1 (price "close" st) (ago "wc" st) -> let n := days_shown st in
  fsignal_of (ob_ind st) (table n [("close", column t c N)]) (mkTable n (fun _ => FloatSpec.cell (fwc (column t c N) (column t h N) (column t l N)))) = Some (get_ti_signal st).
Proof. exact @weighted_signal. Qed.
Print Assumptions C97_weighted_close.
Theorem C97_macd : forall o raw b st c N, (days_shown st <= N)%nat ->
  working o cMACD raw b st -> holds "close" st 1 c -> moderate 26 c N ->
  apart_days st 2 2 (ago "macd" st) (fun _ => level 0) -> apart_days st 2 5 (ago "macd" st) (ago "signal_line" st) ->
  forall inp, let n := days_shown st in let C := column 1 c N in f_rows inp = n ->
  fsignal_of (ob_ind st) inp (table n [("macd", fmacd C); ("signal_line", fmacd_signal C)]) = Some (get_ti_signal st).
Proof. exact @macd_signal_same. Qed.
Print Assumptions C97_macd.
Theorem C97_qstick : forall o raw b st c N, (days_shown st <= N)%nat ->
  forall op p, working o (cQS p) raw b st -> holds "close" st 1 c -> holds "open" st 1 op -> steady c N -> steady op N ->
  let x := ago "qstick" st in clear 2 (x 4%nat) (x 3%nat) -> clear 1 (x 3%nat) (level 0) -> clear 1 (x 2%nat) (level 0) -> clear 2 (x 2%nat) (x 1%nat) ->
  forall inp, let n := days_shown st in f_rows inp = n ->
  fsignal_of (ob_ind st) inp (table n [("qstick", fqstick (nat_arg p) (column 1 op N) (column 1 c N))]) = Some (get_ti_signal st).
Proof. exact @qstick_signal. Qed.
Print Assumptions C97_qstick.
Theorem C97_volume_oscillator : forall o raw b st N, (days_shown st <= N)%nat ->
  forall v p q, working o (cVOSC p q) raw b st -> (forall j, (j < days_shown st)%nat -> given "volume" st j = Fin (zq (v j))) ->
  (Z.of_nat (nat_arg p) <= 2 ^ 20)%Z -> (forall i, (i < N)%nat -> (0 <= v i <= 2 ^ 32)%Z) ->
  let x := ago "vosc" st in clear 1 (x 3%nat) (level 0) -> clear 1 (x 1%nat) (level 0) -> clear 2 (x 3%nat) (x 2%nat) -> clear 2 (x 2%nat) (x 1%nat) ->
  forall inp, let n := days_shown st in f_rows inp = n ->
  fsignal_of (ob_ind st) inp (table n [("vosc", fvosc (nat_arg p) (nat_arg q) (whole v N))]) = Some (get_ti_signal st).
Proof. exact @volume_oscillator_signal. Qed.
Print Assumptions C97_volume_oscillator.
Theorem C97_price_rate : forall o raw b st c N, (days_shown st <= N)%nat ->
  forall p, working o (cPRC p) raw b st -> holds "close" st 1 c -> (forall i, (i < N)%nat -> (0 <= c i <= 2 ^ 50)%Z) ->
  (forall k, (k < days_shown st)%nat -> (c (k - nat_arg p)%nat = 0 \/ c k <= 2 ^ 24 * c (k - nat_arg p)%nat)%Z) ->
  apart_days st 2 2 (fun d => ago "prc" st (S d)) (ago "prc" st) ->
  forall inp, let n := days_shown st in f_rows inp = n -> fsignal_of (ob_ind st) inp (table n [("prc", fprc (nat_arg p) (column 1 c N))]) = Some (get_ti_signal st).
Proof. exact @price_rate_signal. Qed.
Print Assumptions C97_price_rate.
Theorem C97_volume_rate : forall o raw b st v N, (days_shown st <= N)%nat ->
  forall p, working o (cVRC p) raw b st -> holds "volume" st 1 v -> (forall i, (i < N)%nat -> (0 <= v i <= 2 ^ 50)%Z) ->
  (forall k, (k < days_shown st)%nat -> (v (k - nat_arg p)%nat = 0 \/ v k <= 2 ^ 24 * v (k - nat_arg p)%nat)%Z) ->
  apart_days st 2 2 (fun d => ago "vrc" st (S d)) (ago "vrc" st) ->
  forall inp, let n := days_shown st in f_rows inp = n -> fsignal_of (ob_ind st) inp (table n [("vrc", fvrc (nat_arg p) (column 1 v N))]) = Some (get_ti_signal st).
Proof. exact @volume_rate_signal. Qed.
Print Assumptions C97_volume_rate.
(** the lines of the price channel are prices: nothing has to be apart *)
Theorem C97_price_channel : forall o raw b st c N, (days_shown st <= N)%nat ->
  forall t h l p, working o (cPCH p) raw b st -> holds "close" st t c -> holds "high" st t h -> holds "low" st t l ->
  fits t h N -> fits t l N -> fits t c N -> let n := days_shown st in
  fsignal_of (ob_ind st) (table n [("close", column t c N)]) (table n [("highest_high", fpch_high (nat_arg p) (column t h N)); ("lowest_low", fpch_low (nat_arg p) (column t l N))])
  = Some (get_ti_signal st).
Proof. exact @channel_signal. Qed.
Print Assumptions C97_price_channel.
Example C97_line_case : let c := season_at close_of in let C := column 1 c 36 in let h := ticks (map high_of season) in let l := ticks (map low_of season) in let c' := ticks (map close_of season) in
  let w := on_day (cWS (VInt 3)) season 6 in let x := on_day cWC season 7 in let m := on_day cMACD season 34 in let p := on_day (cPCH (VInt 3)) season 9 in
  holds "close" w 1 c /\ holds "close" m 1 c /\ holds "close" x 10000 c' /\ holds "high" x 10000 h /\ holds "low" x 10000 l /\ holds "close" p 10000 c' /\ holds "high" p 10000 h /\ holds "low" p 10000 l /\
  moderate 3 c 36 /\ moderate 26 c 36 /\ fits 10000 h 36 /\ fits 10000 l 36 /\ fits 10000 c' 36 /\ (forall i, (i < 36)%nat -> (l i <= c' i <= h i)%Z) /\
  apart_days w 2 1 (price "close" w) (ago "ws" w) /\ apart_days x 2 1 (price "close" x) (ago "wc" x) /\
  apart_days m 2 2 (ago "macd" m) (fun _ => level 0) /\ apart_days m 2 5 (ago "macd" m) (ago "signal_line" m) /\
  shows (cWS (VInt 3)) season [(6, Buy)]%nat = true /\ fsays Buy (fsignal_of (ob_ind w) (table 7 [("close", C)]) (mkTable 7 (fun _ => fws from_left 3 C))) = true /\
  shows cWC season [(7, Sell)]%nat = true /\ fsays Sell (fsignal_of (ob_ind x) (table 8 [("close", C)]) (table 8 [("wc", fwc (column 10000 c' 36) (column 10000 h 36) (column 10000 l 36))])) = true /\
  shows cMACD season [(34, Sell)]%nat = true /\ fsays Sell (fsignal_of (ob_ind m) (table 35 []) (table 35 [("macd", fmacd C); ("signal_line", fmacd_signal C)])) = true /\
  shows (cPCH (VInt 3)) season [(9, Buy)]%nat = true /\
  fsays Buy (fsignal_of (ob_ind p) (table 10 [("close", C)]) (table 10 [("highest_high", fpch_high 3 (column 10000 h 36)); ("lowest_low", fpch_low 3 (column 10000 l 36))])) = true.
Proof.
  cbv zeta. do 8 (split; [apply holds_of; vm_compute; reflexivity|]).
  do 2 (split; [apply whole_moderate; vm_compute; reflexivity|]).
  do 3 (split; [split; [lia|intros i I; do 36 (destruct i as [|i]; [vm_compute; discriminate|]); lia]|]).
  split; [intros i I; do 36 (destruct i as [|i]; [vm_compute; split; discriminate|]); lia|].
  do 4 (split; [apply apart_days_of; vm_compute; reflexivity|]).
  repeat (split; [vm_compute; reflexivity|]). vm_compute. reflexivity.
Qed.
Example C97_change_case : let c := season_at close_of in let op := season_at open_of in let v := season_at volume_of in let vol i := nth i (map volume_of season) 0%Z in let C := column 1 c 36 in
  let q := on_day (cQS (VInt 3)) season 13 in let s := on_day (cVOSC (VInt 5) (VInt 2)) season 24 in let p := on_day (cPRC (VInt 3)) season 5 in let r := on_day (cVRC (VInt 3)) season 12 in
  let x := ago "qstick" q in let y := ago "vosc" s in
  steady c 36 /\ steady op 36 /\ holds "close" q 1 c /\ holds "open" q 1 op /\ holds "close" p 1 c /\ holds "volume" r 1 v /\
  clear 2 (x 4%nat) (x 3%nat) /\ clear 1 (x 3%nat) (level 0) /\ clear 1 (x 2%nat) (level 0) /\ clear 2 (x 2%nat) (x 1%nat) /\
  clear 1 (y 3%nat) (level 0) /\ clear 1 (y 1%nat) (level 0) /\ clear 2 (y 3%nat) (y 2%nat) /\ clear 2 (y 2%nat) (y 1%nat) /\
  apart_days p 2 2 (fun d => ago "prc" p (S d)) (ago "prc" p) /\ apart_days r 2 2 (fun d => ago "vrc" r (S d)) (ago "vrc" r) /\
  (forall i, (i < 36)%nat -> (0 <= c i <= 2 ^ 50)%Z /\ (0 <= v i <= 2 ^ 50)%Z /\ (0 <= vol i <= 2 ^ 32)%Z) /\
  (forall k, (k < 36)%nat -> (c k <= 2 ^ 24 * c (k - 3)%nat)%Z /\ (v k <= 2 ^ 24 * v (k - 3)%nat)%Z) /\
  forallb (fun j => neqb (given "volume" s j) (Fin (zq (vol j)))) (seq 0 25) = true /\
  shows (cQS (VInt 3)) season [(13, Buy)]%nat = true /\ fsays Buy (fsignal_of (ob_ind q) (table 14 []) (table 14 [("qstick", fqstick 3 (column 1 op 36) C)])) = true /\
  shows (cVOSC (VInt 5) (VInt 2)) season [(24, Buy)]%nat = true /\ fsays Buy (fsignal_of (ob_ind s) (table 25 []) (table 25 [("vosc", fvosc 5 2 (whole vol 36))])) = true /\
  shows (cPRC (VInt 3)) season [(5, Sell)]%nat = true /\ fsays Sell (fsignal_of (ob_ind p) (table 6 []) (table 6 [("prc", fprc 3 C)])) = true /\
  shows (cVRC (VInt 3)) season [(12, Buy)]%nat = true /\ fsays Buy (fsignal_of (ob_ind r) (table 13 []) (table 13 [("vrc", fvrc 3 (column 1 v 36))])) = true.
Proof.
  cbv zeta. do 2 (split; [apply whole_steady; vm_compute; reflexivity|]). do 4 (split; [apply holds_of; vm_compute; reflexivity|]).
  do 8 (split; [apply clear_of; vm_compute; reflexivity|]). do 2 (split; [apply apart_days_of; vm_compute; reflexivity|]).
  split; [intros i I; do 36 (destruct i as [|i]; [vm_compute; repeat split; discriminate|]); lia|].
  split; [intros i I; do 36 (destruct i as [|i]; [vm_compute; repeat split; discriminate|]); lia|].
  repeat (split; [vm_compute; reflexivity|]). vm_compute. reflexivity.
Qed.
(** ** C97 a close comparison does change the signal *)
Theorem C97_any_signal_refuted : exists raw st c p, let C := column 1 c 2 in
  working ora0 (cMA p (VStr "simple")) raw true st /\ days_shown st = 2%nat /\ holds "close" st 1 c /\ steady c 2 /\
  get_ti_signal st = Ok Hold /\ fsignal_of (ob_ind st) (table 2 [("close", C)]) (table 2 [("ma-simple", fsma (nat_arg p) C)]) = Some (Ok Buy).
Proof.
  exists two_ticks, (short_of (cMA (VInt 2) (VStr "simple"))), tick2, (VInt 2). cbv zeta.
  split.
  - split; [split; [reflexivity|intros r [<-|[<-|[]]]; reflexivity]|]. exists (short_of (cMA (VInt 2) (VStr "simple"))). split; [vm_compute; reflexivity|left; reflexivity].
  - split; [vm_compute; reflexivity|]. split; [apply holds_of; vm_compute; reflexivity|].
    split; [intros i I; do 2 (destruct i as [|i]; [vm_compute; discriminate|]); lia|]. split; vm_compute; reflexivity.
Qed.
Print Assumptions C97_any_signal_refuted.
