(** * SwaySpec: words used in the statements about prices that are slightly off and about old prices that are forgotten. *)
From Coq Require Import ZArith QArith Qcanon Bool List String PeanoNat.
From Verif Require Import Num NumFacts Pandas Sim Frame FrameSpec Ind Signal Api IndSpec ApiSpec RangeSpec ValueSpec FormulaSpec SignalSpec MirrorSpec.
Import ListNotations.
Open Scope list_scope. Open Scope string_scope. Open Scope Qc_scope.

(** both missing, or both numbers at most e apart *)
Definition near (e : Qc) (x y : num) : Prop := (x = NaN /\ y = NaN) \/ exists a b, x = Fin a /\ y = Fin b /\ a <= b + e /\ b <= a + e.
(** n units of the fourth decimal *)
Definition units4 (n : Z) : Qc := zq n / zq 10000.

(** ** prices that are off by e at most *)
Definition off_by (e : Qc) (k : nat) (ob ob' : obj) (name : string) (f g : nat -> Qc) : Prop :=
  known (given name ob) k f /\ known (given name ob') k g /\ forall j, (j <= k)%nat -> f j <= g j + e /\ g j <= f j + e.
Definition misread (c : ctor) (e : Qc) (k : nat) (ob ob' : obj) (op op' h h' l l' cl cl' : nat -> Qc) : Prop :=
  let asks name := In name (required (asked c)) in
  (asks "open" -> off_by e k ob ob' "open" op op') /\ (asks "high" -> off_by e k ob ob' "high" h h') /\
  (asks "low" -> off_by e k ob ob' "low" l l') /\ (asks "close" -> off_by e k ob ob' "close" cl cl').
(** columns, how many times the error of the prices they can show, and the units lost by rounding *)
Definition sway (c : ctor) : list (string * Qc * Z) :=
  match c with
  | cMA _ (VStr t) => if existsb (String.eqb t) ["simple"; "exponential"; "triangular"] then [("ma-" ++ t, 1, 1%Z)] else []
  | cWS _ => [("ws", 1, 1%Z)] | cMP _ => [("mp", 1, 1%Z)] | cTP _ => [("tp", 1, 1%Z)] | cWC => [("wc", 1, 1%Z)]
  | cICH => [("tenkan_sen", 1, 1%Z); ("kijun_sen", 1, 1%Z); ("senkou_a", 1, 1%Z); ("senkou_b", 1, 1%Z)]
  | cPCH _ => [("highest_high", 1, 1%Z); ("lowest_low", 1, 1%Z)]
  | cBB _ _ => [("middle_band", 1, 1%Z)]
  | cENV _ w => match as_number w with Fin s => [("upper_band", 1 + s, 1%Z); ("lower_band", 1 - s, 1%Z)] | _ => [] end
  | cDEMA _ => [("dema", zq 3, 1%Z)] | cTEMA _ => [("tema", zq 7, 1%Z)]
  | cMACD => [("macd", zq 2, 2%Z); ("signal_line", zq 2, 3%Z)]
  | cQS _ => [("qstick", zq 2, 1%Z)]
  | _ => []
  end.

(** ** two histories that end alike *)
(** the last m values up to row k of the first and row k' of the second are the same, all values lie between lo and lo + w *)
Definition meets (m k k' : nat) (f g : nat -> Qc) : Prop := forall j, (j < m)%nat -> f (k - j)%nat = g (k' - j)%nat.
Definition inside (lo w : Qc) (k : nat) (f : nat -> Qc) : Prop := forall j, (j <= k)%nat -> lo <= f j /\ f j <= lo + w.
(** columns that carry their past along: the first row with a value, the share of w that may be left after m common days, and
    the units lost by rounding *)
Definition remains (c : ctor) (m : nat) : list (string * nat * Qc * Z) :=
  match c with
  | cMA p (VStr t) => if String.eqb t "exponential" then [("ma-exponential", (nat_arg p - 1)%nat, (1 - span (nat_arg p)) ^ m, 1%Z)] else []
  | cWS p => [("ws", (nat_arg p - 1)%nat, (1 - 1 / nq (nat_arg p)) ^ m, 1%Z)]
  | cDEMA p => let al := span (nat_arg p) in [("dema", (2 * (nat_arg p - 1))%nat, (zq 3 + nq m * al) * (1 - al) ^ m, 1%Z)]
  | cTEMA p => let al := span (nat_arg p) in [("tema", (3 * (nat_arg p - 1))%nat, (zq 7 + zq 4 * nq m * al + nq m * nq (S m) * al * al / zq 2) * (1 - al) ^ m, 1%Z)]
  | cMACD => [("macd", 25%nat, (1 - span 12) ^ m + (1 - span 26) ^ m, 2%Z); ("signal_line", 33%nat, zq 3 * (1 - span 26) ^ m, 3%Z)]
  | _ => []
  end.
