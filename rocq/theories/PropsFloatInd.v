(** * PropsFloatInd: C77, ranges and orders of indicators in binary64 (FloatInd.v). *)
From Coq Require Import ZArith Reals Bool List PeanoNat Lia.
From Flocq Require Import Core IEEE754.BinarySingleNaN.
From Verif Require Import Pandas FloatSim FloatInd FloatSpec FloatApi FloatCases.
Import ListNotations.
Open Scope list_scope.

(** ** C77 Williams %R *)
Theorem C77_williams_r :
  forall p high low close k, (0 < p)%nat -> days high low close -> (k < length close)%nat ->
  let v := cell (fwr p high low close) k in
  ((S k < p)%nat -> missing v) /\
  ((p <= S k)%nat ->
    (wide p k high low -> between (-100) 0 v) /\
    (~ wide p k high low -> missing v) /\
    (wide p k high low -> (forall i, recent p k i -> (val (cell close k) <= val (cell low i))%R) -> val v = (-100)%R) /\
    (wide p k high low -> (forall i, recent p k i -> (val (cell high i) <= val (cell close k))%R) -> val v = 0%R)).
Proof. exact williams_cell. Qed.
Print Assumptions C77_williams_r.

(** ** C77 %K *)
Theorem C77_stochastic_k :
  forall p high low close k, (0 < p)%nat -> days high low close -> (k < length close)%nat ->
  let v := cell (fso_k p high low close) k in
  ((S k < p)%nat -> missing v) /\
  ((p <= S k)%nat ->
    (wide p k high low -> between 0 100 v) /\
    (~ wide p k high low -> missing v) /\
    (wide p k high low -> (forall i, recent p k i -> (val (cell close k) <= val (cell low i))%R) -> val v = 0%R) /\
    (wide p k high low -> (forall i, recent p k i -> (val (cell high i) <= val (cell close k))%R) -> val v = 100%R)).
Proof. exact stochastic_cell. Qed.
Print Assumptions C77_stochastic_k.

(** three days in dollars and cents that binary64 cannot represent *)
Example C77_days : days day_high day_low day_close.
Proof. exact day_ok. Qed.
Example C77_days_wide : wide 2 2 day_high day_low.
Proof. exact day_wide. Qed.
Example C77_days_values :
  map bits (fwr 2 day_high day_low day_close) = map bits [fnan; dec4 (-750000); dec4 (-166667)] /\
  map bits (fso_k 2 day_high day_low day_close) = map bits [fnan; dec4 250000; dec4 833333].
Proof. vm_compute. auto. Qed.

(** prices this large do not stay in the range *)
Theorem C77_stochastic_k_refuted :
  exists hh ll c, is_finite hh = true /\ is_finite ll = true /\ is_finite c = true /\
    fltb ll c = true /\ fltb c hh = true /\ fltb (fz 100 0) (cell (fso_k 1 [hh] [ll] [c]) 0) = true.
Proof. exact huge_so. Qed.
Print Assumptions C77_stochastic_k_refuted.

(** ** C77 the relative strength index, for any prices at all *)
Theorem C77_rsi :
  forall npsum p close k, (forall l, added l (npsum l)) -> (0 < p)%nat -> (Z.of_nat p < 2 ^ 53)%Z ->
  missing (frsi npsum p close k) \/ between 0 100 (frsi npsum p close k).
Proof. exact rsi_cell. Qed.
Print Assumptions C77_rsi.
Example C77_rsi_case :
  map (fun k => bits (frsi (fun l => fold_left fadd l f0) 2 (map dec4 [104700; 105300; 104900; 106100; 103300]%Z) k)) [0; 1; 2; 3; 4]%nat
  = map bits [fnan; fnan; dec4 600000; dec4 882353; dec4 205479].
Proof. vm_compute. reflexivity. Qed.

(** ** C77 half sums *)
Theorem C77_median_price :
  forall high low k, length low = length high -> (k < length high)%nat ->
  price (cell high k) -> price (cell low k) -> (val (cell low k) <= val (cell high k))%R ->
  between (val (fround4 (cell low k))) (val (fround4 (cell high k))) (cell (fmp high low) k).
Proof. exact median_cell. Qed.
Print Assumptions C77_median_price.
Theorem C77_median_price_decimal :
  forall high low k a b, length low = length high -> (k < length high)%nat -> (Z.abs a <= 2 ^ 50)%Z -> (Z.abs b <= 2 ^ 50)%Z ->
  cell low k = dec4 a -> cell high k = dec4 b -> (a <= b)%Z ->
  between (val (dec4 a)) (val (dec4 b)) (cell (fmp high low) k).
Proof. exact median_cell_decimal. Qed.
Print Assumptions C77_median_price_decimal.
Theorem C77_ichimoku_lines :
  forall n high low k, (0 < n)%nat -> bars_ok high low -> (k < length high)%nat ->
  exists i j, recent n k i /\ recent n k j /\
    (forall x, recent n k x -> (val (cell low i) <= val (cell low x))%R /\ (val (cell high x) <= val (cell high j))%R) /\
    between (val (cell low i)) (val (cell high j)) (cell (fich n high low) k) /\
    between (val (fround4 (cell low i))) (val (fround4 (cell high j))) (fround4 (cell (fich n high low) k)).
Proof. exact line_of_bars. Qed.
Print Assumptions C77_ichimoku_lines.
Example C77_half_case :
  bars_ok day_high day_low /\
  map bits (fmp day_high day_low) = map bits (map dec4 [101000; 101000; 102500]%Z) /\
  map bits (map fround4 (fich 9 day_high day_low)) = map bits (map dec4 [101000; 101000; 102000]%Z).
Proof. split; [exact day_bars|]. vm_compute. auto. Qed.

(** ** C77 the price channel *)
Theorem C77_price_channel :
  forall p high low k, (0 < p)%nat -> bars_ok high low -> (k < length high)%nat ->
  let u := cell (fpch_high p high) k in let d := cell (fpch_low p low) k in
  ((k < p)%nat -> missing u /\ missing d) /\
  ((p <= k)%nat -> (is_finite u = true /\ is_finite d = true /\ (val d <= val u)%R) /\
    exists i j, (k - p <= i < k)%nat /\ (k - p <= j < k)%nat /\ val u = val (fround4 (cell high i)) /\ val d = val (fround4 (cell low j)) /\
      forall x, (k - p <= x < k)%nat -> (val (cell high x) <= val (cell high i))%R /\ (val (cell low j) <= val (cell low x))%R).
Proof. exact channel_of_bars. Qed.
Print Assumptions C77_price_channel.
Example C77_price_channel_case :
  map bits (fpch_high 2 day_high) = map bits [fnan; fnan; dec4 103000] /\ map bits (fpch_low 2 day_low) = map bits [fnan; fnan; dec4 99000].
Proof. vm_compute. auto. Qed.

(** ** C77 the Fibonacci levels *)
Theorem C77_fibonacci_order :
  forall close j k, close <> [] -> (forall x, In x close -> price x) -> (0 <= j <= k)%Z -> (k <= 1000)%Z ->
  is_finite (ffib (thousandth j) close) = true /\ is_finite (ffib (thousandth k) close) = true /\
  (val (ffib (thousandth k) close) <= val (ffib (thousandth j) close))%R.
Proof. exact fib_levels. Qed.
Print Assumptions C77_fibonacci_order.
Theorem C77_fibonacci_ends :
  forall close, close <> [] -> decimal_cells close ->
  (exists x, In x close /\ (forall y, In y close -> (val y <= val x)%R) /\ val (ffib (thousandth 0) close) = val x) /\
  (exists x, In x close /\ (forall y, In y close -> (val x <= val y)%R) /\ val (ffib (thousandth 1000) close) = val x).
Proof. exact fib_ends. Qed.
Print Assumptions C77_fibonacci_ends.
Example C77_fibonacci_case :
  decimal_cells day_close /\
  map (fun c => bits (ffib c day_close)) flevels = map bits (map dec4 [104000; 103056; 102472; 102000; 101528; 100000]%Z).
Proof. split; [exact day_decimal|]. vm_compute. reflexivity. Qed.

(** ** C77 rounding to four decimals *)
Theorem C77_round_keeps_decimals :
  forall k, (Z.abs k <= 2 ^ 50)%Z ->
  is_finite (dec4 k) = true /\ is_finite (fround4 (dec4 k)) = true /\ val (fround4 (dec4 k)) = val (dec4 k).
Proof. exact decimal_round. Qed.
Print Assumptions C77_round_keeps_decimals.
Theorem C77_round_monotone :
  forall x y, price x -> price y -> (val x <= val y)%R ->
  is_finite (fround4 x) = true /\ is_finite (fround4 y) = true /\ (val (fround4 x) <= val (fround4 y))%R.
Proof. exact round_monotone. Qed.
Print Assumptions C77_round_monotone.
Example C77_round_case : price (dec4 31416) /\ price (fdiv (fz 22 0) (fz 7 0)) /\ bits (fround4 (fdiv (fz 22 0) (fz 7 0))) = bits (dec4 31429).
Proof. split; [|split]; [exact pi_price|exact pi2_price|vm_compute; reflexivity]. Qed.
Theorem C77_round_large_refuted :
  exists x, is_finite x = true /\ fround4 x = B754_infinity false.
Proof. exact huge_round. Qed.
Print Assumptions C77_round_large_refuted.
