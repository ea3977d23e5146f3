(** * PropsBasket: a basket of two securities, volumes of two venues (C102, C103).

    Three inputs: a first security, a second one, and w units of the first with w' of the second.  [mixed]/[basket] say so
    of the columns that are asked for; [common]: the column is the same in all three.  [adds_up e w w' x y z]: all three
    missing, or z within e of w x + w' y; [slack u n w w'] is what n roundings to u of each number can make.  [between]: all
    three missing, or the third between the first two ([BasketSpec.v]). *)
From Coq Require Import ZArith QArith Qcanon Bool List String PeanoNat Lia.
From Verif Require Import Num NumFacts Pandas Sim Frame FrameSpec Ind Signal Api IndSpec ApiSpec RangeSpec PropsApi PropsRange ValueSpec ValueApi PropsValue PropsCumul FormulaSpec FormulaApi PropsFormula SignalSpec SignalApi MirrorSpec PropsMirror OrderSpec OrderFacts OrderApi PropsOrder BasketSpec BasketFacts BasketApi BasketApi2.
Import ListNotations.
Open Scope list_scope. Open Scope string_scope. Open Scope Qc_scope.

(** ** C102 The averages of a basket are the sums of the averages of its members *)
Theorem C102_basket o raw raw' raw2 b b' b2 ob ob' ob2 c k w w' op op' h h' l l' cl cl' v v' name n : wf_raw raw -> wf_raw raw' -> wf_raw raw2 ->
  thrice c o raw raw' raw2 b b' b2 ob ob' ob2 -> basket c w w' k ob ob' ob2 op op' h h' l l' cl cl' v v' -> In (name, n) (linear c) ->
  adds_up (slack tick4 n w w') w w' (shown name ob k) (shown name ob' k) (shown name ob2 k).
Proof. exact (fun W W' W2 => lines_add o raw raw' raw2 b b' b2 ob ob' ob2 k w w' op op' h h' l l' cl cl' v v' W W' W2 c name n). Qed.
Print Assumptions C102_basket.
Theorem C102_detrended_price o raw raw' raw2 b b' b2 ob ob' ob2 p k w w' cl cl' : wf_raw raw -> wf_raw raw' -> wf_raw raw2 ->
  thrice (cDPO p) o raw raw' raw2 b b' b2 ob ob' ob2 -> mixed w w' k ob ob' ob2 "close" cl cl' -> let d := S (nat_arg p / 2) in (d <= k)%nat ->
  adds_up (slack tick4 1 w w') w w' (shown "dpo" ob (k - d)) (shown "dpo" ob' (k - d)) (shown "dpo" ob2 (k - d)).
Proof. exact (fun W W' W2 => mix_dpo o raw raw' raw2 b b' b2 ob ob' ob2 k w w' cl cl' W W' W2 p). Qed.
Print Assumptions C102_detrended_price.
(** volumes of two venues: the same prices, the volumes add up *)
Theorem C102_on_balance_volume o raw raw' raw2 b b' b2 ob ob' ob2 k w w' c v v' : wf_raw raw -> wf_raw raw' -> wf_raw raw2 ->
  thrice cOBV o raw raw' raw2 b b' b2 ob ob' ob2 -> common k ob ob' ob2 "close" c -> mixed w w' k ob ob' ob2 "volume" v v' ->
  adds_up 0 w w' (shown "obv" ob k) (shown "obv" ob' k) (shown "obv" ob2 k).
Proof. exact (mix_obv o raw raw' raw2 b b' b2 ob ob' ob2 k w w' c v v'). Qed.
Print Assumptions C102_on_balance_volume.
Theorem C102_price_and_volume_trend o raw raw' raw2 b b' b2 ob ob' ob2 k w w' c v v' : wf_raw raw -> wf_raw raw' -> wf_raw raw2 ->
  thrice cPVT o raw raw' raw2 b b' b2 ob ob' ob2 -> common k ob ob' ob2 "close" c -> mixed w w' k ob ob' ob2 "volume" v v' ->
  (forall j, (j < k)%nat -> c j <> 0) -> adds_up (slack tick4 1 w w') w w' (shown "pvt" ob k) (shown "pvt" ob' k) (shown "pvt" ob2 k).
Proof. exact (mix_pvt o raw raw' raw2 b b' b2 ob ob' ob2 k w w' c v v'). Qed.
Print Assumptions C102_price_and_volume_trend.
Theorem C102_klinger_oscillator o raw raw' raw2 b b' b2 ob ob' ob2 k w w' h l c v v' : wf_raw raw -> wf_raw raw' -> wf_raw raw2 ->
  thrice cKO o raw raw' raw2 b b' b2 ob ob' ob2 -> common k ob ob' ob2 "high" h -> common k ob ob' ob2 "low" l -> common k ob ob' ob2 "close" c -> mixed w w' k ob ob' ob2 "volume" v v' ->
  (forall j, (1 <= j <= k)%nat -> measure h l c j <> 0) -> adds_up (slack tick4 1 w w') w w' (shown "ko" ob k) (shown "ko" ob' k) (shown "ko" ob2 k).
Proof. exact (mix_ko o raw raw' raw2 b b' b2 ob ob' ob2 k w w' h l c v v'). Qed.
Print Assumptions C102_klinger_oscillator.
(** the line is cut to whole numbers, so the sum can be off by one for each of the three *)
Theorem C102_accumulation_distribution o raw raw' raw2 b b' b2 ob ob' ob2 k w w' h l c v v' : wf_raw raw -> wf_raw raw' -> wf_raw raw2 ->
  thrice cADL o raw raw' raw2 b b' b2 ob ob' ob2 -> let n := days_given ob in days_given ob' = n -> days_given ob2 = n -> (k < n)%nat ->
  common (n - 1) ob ob' ob2 "high" h -> common (n - 1) ob ob' ob2 "low" l -> common (n - 1) ob ob' ob2 "close" c -> mixed w w' (n - 1) ob ob' ob2 "volume" v v' ->
  (forall j, (j < n)%nat -> l j <= c j /\ c j <= h j) -> adds_up (slack (zq 2) 1 w w') w w' (shown "adl" ob k) (shown "adl" ob' k) (shown "adl" ob2 k).
Proof. exact (mix_adl o raw raw' raw2 b b' b2 ob ob' ob2 k w w' h l c v v'). Qed.
Print Assumptions C102_accumulation_distribution.
Theorem C102_chaikin_oscillator o raw raw' raw2 b b' b2 ob ob' ob2 k w w' h l c v v' : wf_raw raw -> wf_raw raw' -> wf_raw raw2 ->
  thrice cCO o raw raw' raw2 b b' b2 ob ob' ob2 -> let n := days_given ob in days_given ob' = n -> days_given ob2 = n -> (k < n)%nat ->
  common (n - 1) ob ob' ob2 "high" h -> common (n - 1) ob ob' ob2 "low" l -> common (n - 1) ob ob' ob2 "close" c -> mixed w w' (n - 1) ob ob' ob2 "volume" v v' ->
  (forall j, (j < n)%nat -> l j <= c j /\ c j <= h j) -> (forall j, (j < n)%nat -> l j < h j) ->
  adds_up (slack (zq 2) 2 w w' + slack tick4 1 w w') w w' (shown "co" ob k) (shown "co" ob' k) (shown "co" ob2 k).
Proof. exact (mix_co o raw raw' raw2 b b' b2 ob ob' ob2 k w w' h l c v v'). Qed.
Print Assumptions C102_chaikin_oscillator.
(** a basket reaches less far than its members together: channels and true ranges, weights not negative *)
Theorem C102_price_channel o raw raw' raw2 b b' b2 ob ob' ob2 p k w w' h h' l l' : wf_raw raw -> wf_raw raw' -> wf_raw raw2 -> 0 <= w -> 0 <= w' ->
  thrice (cPCH p) o raw raw' raw2 b b' b2 ob ob' ob2 -> mixed w w' k ob ob' ob2 "high" h h' -> mixed w w' k ob ob' ob2 "low" l l' ->
  at_most_sum (slack tick4 1 w w') w w' (shown "highest_high" ob k) (shown "highest_high" ob' k) (shown "highest_high" ob2 k) /\
  at_least_sum (slack tick4 1 w w') w w' (shown "lowest_low" ob k) (shown "lowest_low" ob' k) (shown "lowest_low" ob2 k).
Proof. exact (fun W W' W2 P P' => mix_pch o raw raw' raw2 b b' b2 ob ob' ob2 k w w' h h' l l' W W' W2 P P' p). Qed.
Print Assumptions C102_price_channel.
Theorem C102_average_true_range o raw raw' raw2 b b' b2 ob ob' ob2 k w w' h h' l l' c c' : wf_raw raw -> wf_raw raw' -> wf_raw raw2 -> 0 <= w -> 0 <= w' ->
  thrice cATR o raw raw' raw2 b b' b2 ob ob' ob2 -> (13 <= k)%nat -> mixed w w' k ob ob' ob2 "high" h h' -> mixed w w' k ob ob' ob2 "low" l l' -> mixed w w' k ob ob' ob2 "close" c c' ->
  at_most_sum (slack tick4 1 w w') w w' (shown "atr" ob k) (shown "atr" ob' k) (shown "atr" ob2 k).
Proof. exact (mix_atr o raw raw' raw2 b b' b2 ob ob' ob2 k w w' h h' l l' c c'). Qed.
Print Assumptions C102_average_true_range.

(** ** C103 The rate of change of a basket lies between the rates of its members *)
Theorem C103_rates o raw raw' raw2 b b' b2 ob ob' ob2 c k w w' op op' h h' l l' cl cl' v v' name : wf_raw raw -> wf_raw raw' -> wf_raw raw2 -> 0 <= w -> 0 <= w' -> 0 < w + w' ->
  thrice c o raw raw' raw2 b b' b2 ob ob' ob2 -> basket c w w' k ob ob' ob2 op op' h h' l l' cl cl' v v' -> rated c k h l cl v -> rated c k h' l' cl' v' -> In name (rates c) ->
  between (shown name ob k) (shown name ob' k) (shown name ob2 k).
Proof. exact (fun W W' W2 P P' S0 => rates_between o raw raw' raw2 b b' b2 ob ob' ob2 k w w' op op' h h' l l' cl cl' v v' W W' W2 P P' S0 c name). Qed.
Print Assumptions C103_rates.
Theorem C103_chaikin_money_flow o raw raw' raw2 b b' b2 ob ob' ob2 p k w w' h l c v v' : wf_raw raw -> wf_raw raw' -> wf_raw raw2 -> 0 <= w -> 0 <= w' -> 0 < w + w' ->
  thrice (cCMF p) o raw raw' raw2 b b' b2 ob ob' ob2 -> common k ob ob' ob2 "high" h -> common k ob ob' ob2 "low" l -> common k ob ob' ob2 "close" c -> mixed w w' k ob ob' ob2 "volume" v v' ->
  (forall j, (j <= k)%nat -> l j <= c j /\ c j <= h j /\ l j < h j) -> (forall j, (j <= k)%nat -> 0 < v j) -> (forall j, (j <= k)%nat -> 0 < v' j) ->
  between (shown "cmf" ob k) (shown "cmf" ob' k) (shown "cmf" ob2 k).
Proof. exact (fun W W' W2 P P' S0 => rate_cmf o raw raw' raw2 b b' b2 ob ob' ob2 k w w' h l c v v' W W' W2 P P' S0 p). Qed.
Print Assumptions C103_chaikin_money_flow.

(** ** cases: w units of the rows rs and w' of the rows rs' *)
Definition rows := list (Z * Z * Z * Z * Z).
Definition join (w w' : Z) (rs rs' : rows) : rows := map (fun p => let '((o, h, l, c, v), (o', h', l', c', v')) := p in (w * o + w' * o', w * h + w' * h', w * l + w' * l', w * c + w' * c', w * v + w' * v')%Z) (combine rs rs').
Definition triple (c : ctor) (rs rs' rs2 : rows) (ob ob' ob2 : obj) : Prop :=
  wf_raw (bars rs) /\ wf_raw (bars rs') /\ wf_raw (bars rs2) /\ thrice c ora0 (bars rs) (bars rs') (bars rs2) true true true ob ob' ob2.
Definition basket_b (c : ctor) (w w' : Z) (k : nat) (rs rs' : rows) : bool :=
  let rs2 := join w w' rs rs' in let ob2 := obj_of c rs2 in is_made c rs && is_made c rs' && is_made c rs2 && reads c rs rs' (S k) (obj_of c rs) (obj_of c rs') &&
  forallb (fun q => let '(name, f) := q in negb (existsb (String.eqb name) (required (asked c))) || reads_as (given name ob2) (S k) (fun j => mix (zq w) (zq w') (f rs j) (f rs' j)))
    [("open", op_of); ("high", hi_of); ("low", lo_of); ("close", cl_of); ("volume", vo_of)].
Lemma basket_ok c w w' k rs rs' : basket_b c w w' k rs rs' = true -> let rs2 := join w w' rs rs' in triple c rs rs' rs2 (obj_of c rs) (obj_of c rs') (obj_of c rs2) /\
  basket c (zq w) (zq w') k (obj_of c rs) (obj_of c rs') (obj_of c rs2) (op_of rs) (op_of rs') (hi_of rs) (hi_of rs') (lo_of rs) (lo_of rs') (cl_of rs) (cl_of rs') (vo_of rs) (vo_of rs').
Proof.
  unfold basket_b. cbv zeta. rewrite !andb_true_iff. intros [[[[A B] C] R] F]. set (rs2 := join w w' rs rs') in *. clearbody rs2.
  split; [repeat split; try apply bars_wf; apply is_made_ok; assumption|]. pose proof (reads_ok _ _ _ _ _ _ R) as G. rewrite forallb_forall in F.
  assert (Q : forall name f, In (name, f) [("open", op_of); ("high", hi_of); ("low", lo_of); ("close", cl_of); ("volume", vo_of)] -> In name (required (asked c)) -> known (given name (obj_of c rs2)) k (fun j => mix (zq w) (zq w') (f rs j) (f rs' j))).
  { intros name f I K. specialize (F _ I). cbv beta iota in F. apply orb_true_iff in F as [F|F].
    - apply negb_true_iff in F. assert (X : existsb (String.eqb name) (required (asked c)) = true) by (apply existsb_exists; exists name; split; [exact K|apply String.eqb_refl]). congruence.
    - unfold reads_as in F. rewrite forallb_forall in F. intros j J. specialize (F j ltac:(apply in_seq; lia)). destruct (given name (obj_of c rs2) j); try discriminate. f_equal. apply qeqb_iff. exact F. }
  split; [|split; [|split; [|split]]]; intro I.
  - exact (conj (proj1 (G "open" (op_of rs) (op_of rs') ltac:(cbn; auto 6) I)) (conj (proj2 (G "open" (op_of rs) (op_of rs') ltac:(cbn; auto 6) I)) (Q "open" op_of ltac:(cbn; auto 6) I))).
  - exact (conj (proj1 (G "high" (hi_of rs) (hi_of rs') ltac:(cbn; auto 6) I)) (conj (proj2 (G "high" (hi_of rs) (hi_of rs') ltac:(cbn; auto 6) I)) (Q "high" hi_of ltac:(cbn; auto 6) I))).
  - exact (conj (proj1 (G "low" (lo_of rs) (lo_of rs') ltac:(cbn; auto 6) I)) (conj (proj2 (G "low" (lo_of rs) (lo_of rs') ltac:(cbn; auto 6) I)) (Q "low" lo_of ltac:(cbn; auto 6) I))).
  - exact (conj (proj1 (G "close" (cl_of rs) (cl_of rs') ltac:(cbn; auto 6) I)) (conj (proj2 (G "close" (cl_of rs) (cl_of rs') ltac:(cbn; auto 6) I)) (Q "close" cl_of ltac:(cbn; auto 6) I))).
  - exact (conj (proj1 (G "volume" (vo_of rs) (vo_of rs') ltac:(cbn; auto 6) I)) (conj (proj2 (G "volume" (vo_of rs) (vo_of rs') ltac:(cbn; auto 6) I)) (Q "volume" vo_of ltac:(cbn; auto 6) I))).
Qed.

(** it is false that other columns add up: the highest high, the standard deviation and the average true range of a basket
    are smaller, the RSI and the parabolic SAR are not sums at all *)
Definition unlike : list (ctor * string * rows * rows * nat) :=
  [(cPCH (VInt 3), "highest_high", ten_days, rev ten_days, 6%nat); (cSD (VInt 3), "sd", ten_days, rev ten_days, 9%nat); (cATR, "atr", month, rev month, 29%nat);
   (cRSI (VInt 3), "rsi", ten_days, rev ten_days, 9%nat); (cBB (VInt 3) (VFloat (F 2)), "upper_band", ten_days, rev ten_days, 9%nat); (cPSAR, "sar", ten_days, rev ten_days, 9%nat)].
Theorem C102_other_columns_refuted : forall c name rs rs' k, In (c, name, rs, rs', k) unlike -> exists ob ob' ob2 a a' d,
  triple c rs rs' (join 1 1 rs rs') ob ob' ob2 /\ basket c (zq 1) (zq 1) k ob ob' ob2 (op_of rs) (op_of rs') (hi_of rs) (hi_of rs') (lo_of rs) (lo_of rs') (cl_of rs) (cl_of rs') (vo_of rs) (vo_of rs') /\
  shown name ob k = Fin a /\ shown name ob' k = Fin a' /\ shown name ob2 k = Fin d /\ Q2Qc (1 # 4) < abs (d - (a + a')).
Proof.
  assert (Q : forallb (fun x => let '(c, name, rs, rs', k) := x in basket_b c 1 1 k rs rs' &&
    match shown name (obj_of c rs) k, shown name (obj_of c rs') k, shown name (obj_of c (join 1 1 rs rs')) k with Fin a, Fin a', Fin d => qltb (Q2Qc (1 # 4)) (abs (d - (a + a'))) | _, _, _ => false end) unlike = true) by (vm_compute; reflexivity).
  intros c name rs rs' k I. rewrite forallb_forall in Q. specialize (Q _ I). cbv beta iota in Q. apply andb_true_iff in Q as [A B]. destruct (basket_ok _ _ _ _ _ _ A) as [P M].
  exists (obj_of c rs), (obj_of c rs'), (obj_of c (join 1 1 rs rs')). destruct (shown name (obj_of c rs) k) as [| | |a]; try discriminate. destruct (shown name (obj_of c rs') k) as [| | |a']; try discriminate.
  destruct (shown name (obj_of c (join 1 1 rs rs')) k) as [| | |d]; try discriminate. exists a, a', d. apply qltb_iff in B. auto 10.
Qed.
Print Assumptions C102_other_columns_refuted.
(** it is false that every oscillator of a basket lies between those of its members: two securities that swing against each
    other have an RSI of 60 each, and their basket one of 100 *)
Definition zig : rows := map (fun c => (c, c, c, c, 5)%Z) [10; 13; 11]%Z. Definition zag : rows := map (fun c => (c, c, c, c, 5)%Z) [10; 8; 11]%Z.
Definition up : rows := map (fun c => (c, c, c, c, 5)%Z) [10; 18; 15]%Z. Definition down : rows := map (fun c => (c, c, c, c, 5)%Z) [20; 14; 18]%Z.
Definition outside : list (ctor * string * rows * rows * nat) := (
  [(cRSI (VInt 2), "rsi", zig, zag, 2%nat); (cCMO (VInt 2), "cmo", zig, zag, 2%nat); (cVHF (VInt 3), "vhf", firstn 1 zig ++ zig, firstn 1 zag ++ zag, 3%nat); (cWR (VInt 3), "wr", up, down, 2%nat);
   (cSO (VInt 3) (VInt 1) (VInt 1) (VStr "simple"), "%K", up, down, 2%nat)])%list.
Theorem C103_oscillators_refuted : forall c name rs rs' k, In (c, name, rs, rs', k) outside -> exists ob ob' ob2 a a' d,
  triple c rs rs' (join 1 1 rs rs') ob ob' ob2 /\ basket c (zq 1) (zq 1) k ob ob' ob2 (op_of rs) (op_of rs') (hi_of rs) (hi_of rs') (lo_of rs) (lo_of rs') (cl_of rs) (cl_of rs') (vo_of rs) (vo_of rs') /\
  shown name ob k = Fin a /\ shown name ob' k = Fin a' /\ shown name ob2 k = Fin d /\ a < d /\ a' < d.
Proof.
  assert (Q : forallb (fun x => let '(c, name, rs, rs', k) := x in basket_b c 1 1 k rs rs' &&
    match shown name (obj_of c rs) k, shown name (obj_of c rs') k, shown name (obj_of c (join 1 1 rs rs')) k with Fin a, Fin a', Fin d => qltb a d && qltb a' d | _, _, _ => false end) outside = true) by (vm_compute; reflexivity).
  intros c name rs rs' k I. rewrite forallb_forall in Q. specialize (Q _ I). cbv beta iota in Q. apply andb_true_iff in Q as [A B]. destruct (basket_ok _ _ _ _ _ _ A) as [P M].
  exists (obj_of c rs), (obj_of c rs'), (obj_of c (join 1 1 rs rs')). destruct (shown name (obj_of c rs) k) as [| | |a]; try discriminate. destruct (shown name (obj_of c rs') k) as [| | |a']; try discriminate.
  destruct (shown name (obj_of c (join 1 1 rs rs')) k) as [| | |d]; try discriminate. exists a, a', d. apply andb_true_iff in B as [B B']. apply qltb_iff in B, B'. auto 10.
Qed.
Print Assumptions C103_oscillators_refuted.

(** 2 units of ten days and 3 of the same days in reverse; also one unit long and one short *)
Definition basket_cases := [cMA (VInt 3) (VStr "simple"); cMA (VInt 3) (VStr "exponential"); cMA (VInt 3) (VStr "triangular"); cMA (VInt 3) (VStr "time_series"); cWS (VInt 2); cMP (VInt 2); cTP (VInt 2); cWC; cBB (VInt 3) (VFloat (F 2)); cENV (VInt 3) (VFloat (D 1 10)); cDEMA (VInt 2); cTEMA (VInt 2); cQS (VInt 2); cVOSC (VInt 3) (VInt 2); cLRI (VInt 3); cLRS (VInt 3); cTSF (VInt 3)].
Definition all_finite (c : ctor) (w w' : Z) (names : list string) := forallb (fun name => isfin (shown name (obj_of c ten_days) 9) && isfin (shown name (obj_of c (rev ten_days)) 9) && isfin (shown name (obj_of c (join w w' ten_days (rev ten_days))) 9)) names && negb (match names with [] => true | _ => false end).
Example C102_case : forallb (fun c => basket_b c 2 3 9 ten_days (rev ten_days) && all_finite c 2 3 (map fst (linear c))) basket_cases = true /\
  basket_b cMACD 2 3 29 month (rev month) = true /\ isfin (shown "macd" (obj_of cMACD (join 2 3 month (rev month))) 29) = true.
Proof. vm_compute. auto. Qed.
Example C102_hypotheses : let c := cDEMA (VInt 2) in let rs := ten_days in let rs' := rev ten_days in let ob := obj_of c rs in let ob' := obj_of c rs' in let ob2 := obj_of c (join 2 3 rs rs') in
  triple c rs rs' (join 2 3 rs rs') ob ob' ob2 /\ basket c (zq 2) (zq 3) 9 ob ob' ob2 (op_of rs) (op_of rs') (hi_of rs) (hi_of rs') (lo_of rs) (lo_of rs') (cl_of rs) (cl_of rs') (vo_of rs) (vo_of rs').
Proof. apply basket_ok. vm_compute. reflexivity. Qed.
Definition rate_cases := [cMOM (VInt 3); cPRC (VInt 2); cPRF (VStr "LONG") (VInt 2); cPOSC (VInt 3) (VInt 2); cVRC (VInt 2); cVCH (VInt 3) (VInt 2)].
Example C103_case : forallb (fun c => basket_b c 2 3 9 ten_days (rev ten_days) && all_finite c 2 3 (rates c)) rate_cases = true /\
  forallb (fun rs => forallb (fun j => qltb 0 (vo_of rs j) && qltb (lo_of rs j) (hi_of rs j) && qltb 0 (cl_of rs j)) (seq 0 10)) [ten_days; rev ten_days] = true.
Proof. vm_compute. auto. Qed.
(** two venues: the ten days, and the same prices with the volumes in reverse *)
Definition venue (rs : rows) : rows := map (fun p => let '((o, h, l, c, _), (_, _, _, _, v)) := p in (o, h, l, c, v)) (combine rs (rev rs)).
Definition both_venues (w w' : Z) (rs : rows) : rows := map (fun p => let '((o, h, l, c, v), (_, _, _, _, v')) := p in (o, h, l, c, w * v + w' * v')%Z) (combine rs (venue rs)).
Definition venues_b (c : ctor) (w w' : Z) (rs : rows) : bool :=
  let n := List.length rs in let ob2 := obj_of c (both_venues w w' rs) in is_made c rs && is_made c (venue rs) && is_made c (both_venues w w' rs) &&
  forallb (fun ob => forallb (fun q => negb (existsb (String.eqb (fst q)) (required (asked c))) || reads_as (given (fst q) ob) n (snd q rs)) [("high", hi_of); ("low", lo_of); ("close", cl_of)]) [obj_of c rs; obj_of c (venue rs); ob2] &&
  reads_as (given "volume" (obj_of c rs)) n (vo_of rs) && reads_as (given "volume" (obj_of c (venue rs))) n (vo_of (venue rs)) && reads_as (given "volume" ob2) n (fun j => mix (zq w) (zq w') (vo_of rs j) (vo_of (venue rs) j)).
Definition two_months := (month ++ month)%list.
Example C102_venues_case : forallb (fun c => venues_b c 2 3 month) [cOBV; cPVT; cADL; cCO; cCMF (VInt 3)] = true /\ venues_b cKO 2 3 two_months = true /\
  forallb (fun j => negb (qeqb (measure (hi_of two_months) (lo_of two_months) (cl_of two_months) (S j)) 0)) (seq 0 59) = true /\
  isfin (shown "ko" (obj_of cKO (both_venues 2 3 two_months)) 59) = true /\ isfin (shown "co" (obj_of cCO (both_venues 2 3 month)) 29) = true.
Proof. vm_compute. auto 10. Qed.
