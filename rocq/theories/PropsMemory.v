(** * PropsMemory: how much history an indicator needs.

    [since t raw]: the caller's data without the rows dated before t; [earlier t raw]: how
    many rows these are.  [lookback i name]: how many rows before its own row a cell of the
    column may depend on (MemorySpec). *)
From Coq Require Import ZArith QArith Qcanon Bool List String PeanoNat Lia.
From Verif Require Import Num NumFacts Pandas Sim Frame FrameSpec Ind Signal Api IndSpec ApiSpec RangeSpec PropsApi PropsRange ValueSpec ValueApi PropsValue CumulApi PropsCumul FormulaSpec FormulaApi PropsFormula MemorySpec MemoryApi.
Import ListNotations.
Open Scope list_scope. Open Scope string_scope. Open Scope Qc_scope.

(** ** C74 Old history can be cut off without changing the recent values *)
(** Row k of the result for the shortened data and the row of the same day in the result for all
    data, for every column with a limited look-back *)
Theorem C74_old_rows_forgotten o c raw b ob ob' t name n k : wf_raw raw ->
  snd (construct o c (RFrame raw) (VBool b)) = Ok ob ->
  snd (construct o c (RFrame (since t raw)) (VBool b)) = Ok ob' ->
  (b = true \/ nested (ob_ind ob) = true -> gapless (required (ob_ind ob)) raw) ->
  In name (cols (get_ti_data ob)) -> lookback (ob_ind ob) name = Some n ->
  (n <= k)%nat -> (k < List.length (rows (get_ti_data ob')))%nat ->
  nth k (index (get_ti_data ob')) 0%Z = nth (earlier t raw + k) (index (get_ti_data ob)) 0%Z /\
  shown name ob' k = shown name ob (earlier t raw + k).
Proof. exact (construct_since o c raw b ob ob' t name n k). Qed.
Print Assumptions C74_old_rows_forgotten.
(** OnBalanceVolume starts anew at zero: its value on the first remaining day is taken off *)
Theorem C74_on_balance_volume o raw b ob ob' t k cx vx : wf_raw raw ->
  snd (construct o cOBV (RFrame raw) (VBool b)) = Ok ob ->
  snd (construct o cOBV (RFrame (since t raw)) (VBool b)) = Ok ob' ->
  unfilled ["close"; "volume"] b raw ->
  known (given "close" ob) (earlier t raw + k) cx -> known (given "volume" ob) (earlier t raw + k) vx ->
  exists at_t total, shown "obv" ob (earlier t raw) = Fin at_t /\ shown "obv" ob (earlier t raw + k) = Fin total /\
    shown "obv" ob' k = Fin (total - at_t).
Proof. exact (fun W => obv_since o raw b ob ob' t W k cx vx). Qed.
Print Assumptions C74_on_balance_volume.
(** an exponential average never forgets, but the rest of the old history shrinks by the same
    factor every day *)
Theorem C74_exponential_average o raw b ob ob' t p k c : wf_raw raw ->
  snd (construct o (cMA p (VStr "exponential")) (RFrame raw) (VBool b)) = Ok ob ->
  snd (construct o (cMA p (VStr "exponential")) (RFrame (since t raw)) (VBool b)) = Ok ob' ->
  unfilled ["close"] b raw ->
  known (given "close" ob) (earlier t raw + k) c -> (nat_arg p - 1 <= k)%nat ->
  exists long short, shown "ma-exponential" ob (earlier t raw + k) = Fin (r4 long) /\ shown "ma-exponential" ob' k = Fin (r4 short) /\
    long - short = (1 - span (nat_arg p)) ^ k * (ema_from 0 (nat_arg p) c (earlier t raw) - c (earlier t raw)).
Proof. exact (fun W => ema_since o raw b ob ob' t W p k c). Qed.
Print Assumptions C74_exponential_average.

(** the other columns keep a trace of the day of the panic (the second day), weeks later *)
Definition panic (n : nat) : rawframe :=
  bars (map (fun j => let a := (100 + (Z.of_nat j * 7919) mod 37 - (Z.of_nat j * 31) mod 13)%Z in
                      let m := (if Nat.eqb j 1 then 1000000000000 else 1)%Z in
                      (m * a, m * (a + 9), m * (a - 8), m * (a + (Z.of_nat j * 5) mod 7 - 3), m * (50 + (Z.of_nat j * 97) mod 41))%Z) (seq 0 n)).
Definition unlimited : list (ctor * string * nat) :=
  [(cADL, "adl", 70); (cATR, "atr", 70); (cCO, "co", 70); (cDMI, "+di", 31); (cDMI, "-di", 31); (cDMI, "dx", 31); (cDMI, "adx", 31); (cDMI, "adxr", 43);
   (cDEMA (VInt 9), "dema", 70); (cFIB, "rl_0.0", 70); (cFIB, "rl_23.6", 70); (cFIB, "rl_38.2", 70); (cFIB, "rl_50.0", 70); (cFIB, "rl_61.8", 70); (cKO, "ko", 70); (cMI, "mi", 45);
   (cMA (VInt 9) (VStr "exponential"), "ma-exponential", 70); (cMA (VInt 9) (VStr "variable"), "ma-variable", 70);
   (cMACD, "macd", 70); (cMACD, "signal_line", 70); (cNVI, "nvi", 70); (cOBV, "obv", 70); (cPSAR, "sar", 70); (cPRF (VStr "LONG") (VInt 1), "prf", 70); (cPVI, "pvi", 70); (cPVT, "pvt", 70);
   (cPROJ (VInt 3), "trigger_line", 14); (cRI (VInt 3) (VInt 9), "ri", 20); (cRMI (VInt 3) (VInt 2), "rmi", 40); (cRSI (VInt 3), "rsi", 40); (cRVI (VInt 3), "rvi", 40);
   (cSMI (VInt 3) (VInt 9) (VInt 9), "smi", 40); (cTEMA (VInt 9), "tema", 70); (cVCH (VInt 9) (VInt 2), "vch", 70); (cWS (VInt 3), "ws", 40)]%nat.
Definition trace (q : ctor * string * nat) : bool :=
  let '(c, name, n) := q in
  match made ora0 c (panic n) true, made ora0 c (since 3 (panic n)) true with
  | Some ob, Some ob' =>
      match lookback (ob_ind ob) name, shown name ob (n - 1), shown name ob' (n - 3) with
      | None, Fin a, Fin a' => negb (qeqb a a')
      | _, _, _ => false
      end
  | _, _ => false
  end.
Lemma trace_sound c name n : trace (c, name, n) = true -> exists ob ob' a a',
  snd (construct ora0 c (RFrame (panic n)) (VBool true)) = Ok ob /\
  snd (construct ora0 c (RFrame (since 3 (panic n))) (VBool true)) = Ok ob' /\
  lookback (ob_ind ob) name = None /\ shown name ob (n - 1) = Fin a /\ shown name ob' (n - 3) = Fin a' /\ a <> a'.
Proof.
  unfold trace, made. destruct (snd (construct ora0 c (RFrame (panic n)) (VBool true))) as [ob|] eqn:A; [|discriminate].
  destruct (snd (construct ora0 c (RFrame (since 3 (panic n))) (VBool true))) as [ob'|] eqn:B; [|discriminate].
  destruct (lookback (ob_ind ob) name) eqn:L; [discriminate|]. destruct (shown name ob (n - 1)) as [| | |a] eqn:X; try discriminate.
  destruct (shown name ob' (n - 3)) as [| | |a'] eqn:Y; try discriminate. intro E. exists ob, ob', a, a'. repeat split; auto.
  intro Q. apply qeqb_iff in Q. rewrite Q in E. discriminate E.
Qed.
Theorem C74_every_column_refuted : forall c name n, In (c, name, n) unlimited -> exists ob ob' a a',
  snd (construct ora0 c (RFrame (panic n)) (VBool true)) = Ok ob /\
  snd (construct ora0 c (RFrame (since 3 (panic n))) (VBool true)) = Ok ob' /\
  lookback (ob_ind ob) name = None /\ shown name ob (n - 1) = Fin a /\ shown name ob' (n - 3) = Fin a' /\ a <> a'.
Proof.
  assert (H : forallb trace unlimited = true) by (vm_compute; reflexivity). rewrite forallb_forall in H.
  intros c name n I. apply trace_sound. apply H. exact I.
Qed.
Print Assumptions C74_every_column_refuted.

(** ten days without the first three: the 3-day average agrees from the third remaining row on, not before *)
Example C74_case : let ob := the (made ora0 (cMA (VInt 3) (VStr "simple")) ten true) in let ob' := the (made ora0 (cMA (VInt 3) (VStr "simple")) (since 4 ten) true) in
  earlier 4 ten = 3%nat /\ lookback (ob_ind ob) "ma-simple" = Some 2%nat /\ List.length (rows (get_ti_data ob')) = 7%nat /\
  shown "ma-simple" ob' 2 = shown "ma-simple" ob 5 /\ shown "ma-simple" ob' 2 = Fin (r4 (zq 35 / zq 3)) /\
  shown "ma-simple" ob' 1 = NaN /\ shown "ma-simple" ob 4 <> NaN.
Proof. vm_compute. repeat split; try reflexivity; discriminate. Qed.
(** the stochastic oscillator with slowing: %K needs 2 + 2 earlier rows, %D two more *)
Example C74_stochastic_case : let c := cSO (VInt 3) (VInt 3) (VInt 3) (VStr "simple") in
  let ob := the (made ora0 c ten true) in let ob' := the (made ora0 c (since 3 ten) true) in
  lookback (ob_ind ob) "%K" = Some 4%nat /\ lookback (ob_ind ob) "%D" = Some 6%nat /\
  shown "%K" ob' 4 = shown "%K" ob 6 /\ isfin (shown "%K" ob' 4) = true /\ shown "%K" ob' 3 <> shown "%K" ob 5 /\
  shown "%D" ob' 6 = shown "%D" ob 8 /\ isfin (shown "%D" ob' 6) = true /\ shown "%D" ob' 5 <> shown "%D" ob 7.
Proof. vm_compute. repeat split; try reflexivity; discriminate. Qed.
Example C74_obv_case : let ob := the (made ora0 cOBV ten true) in let ob' := the (made ora0 cOBV (since 4 ten) true) in
  shown "obv" ob 3 = F 70 /\ shown "obv" ob 9 = F 50 /\ shown "obv" ob' 6 = F (-20).
Proof. vm_compute. repeat split. Qed.
Example C74_exponential_case : let c := cMA (VInt 3) (VStr "exponential") in
  let ob := the (made ora0 c ten true) in let ob' := the (made ora0 c (since 4 ten) true) in
  earlier 4 ten = 3%nat /\ isfin (shown "ma-exponential" ob 5) = true /\ isfin (shown "ma-exponential" ob' 2) = true /\
  shown "ma-exponential" ob' 2 <> shown "ma-exponential" ob 5.
Proof. vm_compute. repeat split; discriminate. Qed.
