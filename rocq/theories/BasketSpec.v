(** * BasketSpec: words used in the statements about a basket of two securities and about volumes of two venues. *)
From Coq Require Import ZArith QArith Qcanon Bool List String PeanoNat.
From Verif Require Import Num NumFacts Pandas Sim Frame FrameSpec Ind Signal Api IndSpec ApiSpec RangeSpec ValueSpec FormulaSpec SignalSpec MirrorSpec.
Import ListNotations.
Open Scope list_scope. Open Scope string_scope. Open Scope Qc_scope.

(** the same constructor call was made on three inputs: a first and a second security, and a basket of both *)
Definition thrice (c : ctor) (o : oracle) (raw raw' raw2 : rawframe) (b b' b2 : bool) (ob ob' ob2 : obj) : Prop :=
  snd (construct o c (RFrame raw) (VBool b)) = Ok ob /\ snd (construct o c (RFrame raw') (VBool b')) = Ok ob' /\
  snd (construct o c (RFrame raw2) (VBool b2)) = Ok ob2.
(** w units of the first and w' of the second *)
Definition mix (w w' x y : Qc) : Qc := w * x + w' * y.
(** up to row k the column is f in the first, g in the second input and w f + w' g in the third *)
Definition mixed (w w' : Qc) (k : nat) (ob ob' ob2 : obj) (name : string) (f g : nat -> Qc) : Prop :=
  known (given name ob) k f /\ known (given name ob') k g /\ known (given name ob2) k (fun j => mix w w' (f j) (g j)).
Definition basket (c : ctor) (w w' : Qc) (k : nat) (ob ob' ob2 : obj) (op op' h h' l l' cl cl' v v' : nat -> Qc) : Prop :=
  let asks name := In name (required (asked c)) in
  (asks "open" -> mixed w w' k ob ob' ob2 "open" op op') /\ (asks "high" -> mixed w w' k ob ob' ob2 "high" h h') /\
  (asks "low" -> mixed w w' k ob ob' ob2 "low" l l') /\ (asks "close" -> mixed w w' k ob ob' ob2 "close" cl cl') /\
  (asks "volume" -> mixed w w' k ob ob' ob2 "volume" v v').
(** up to row k the column is f in all three inputs *)
Definition common (k : nat) (ob ob' ob2 : obj) (name : string) (f : nat -> Qc) : Prop :=
  known (given name ob) k f /\ known (given name ob') k f /\ known (given name ob2) k f.

(** all three missing, or numbers a, a', z with z at most e away from w a + w' a' *)
Definition adds_up (e w w' : Qc) (x y z : num) : Prop := (x = NaN /\ y = NaN /\ z = NaN) \/
  exists a a' d, x = Fin a /\ y = Fin a' /\ z = Fin d /\ d <= mix w w' a a' + e /\ mix w w' a a' <= d + e.
(** what n roundings of each of the three numbers to u can make: n (1 + |w| + |w'|) u / 2 *)
Definition slack (u : Qc) (n : Z) (w w' : Qc) : Qc := zq n * (u / zq 2) * (1 + abs w + abs w').
Definition tick4 : Qc := Q2Qc (1 # 10000).

(** the columns that are linear in the input, with the number of roundings *)
Definition linear (c : ctor) : list (string * Z) :=
  match c with
  | cMA p (VStr t) => if existsb (String.eqb t) ["simple"; "exponential"; "triangular"] then [("ma-" ++ t, 1%Z)]
                      else if String.eqb t "time_series" && (2 <=? nat_arg p)%nat then [("ma-time_series", 2%Z)] else []
  | cWS _ => [("ws", 1%Z)] | cMP _ => [("mp", 1%Z)] | cTP _ => [("tp", 1%Z)] | cWC => [("wc", 1%Z)]
  | cBB _ _ => [("middle_band", 1%Z)] | cENV _ _ => [("upper_band", 1%Z); ("lower_band", 1%Z)]
  | cDEMA _ => [("dema", 1%Z)] | cTEMA _ => [("tema", 1%Z)]
  | cMACD => [("macd", 2%Z); ("signal_line", 3%Z)]
  | cQS _ => [("qstick", 1%Z)] | cVOSC _ _ => [("vosc", 1%Z)]
  | cLRI _ => [("lri", 1%Z)] | cLRS p => if (2 <=? nat_arg p)%nat then [("lrs", 1%Z)] else [] | cTSF _ => [("tsf", 2%Z)]
  | _ => []
  end.

(** all three missing, or z between x and y *)
Definition between (x y z : num) : Prop := (x = NaN /\ y = NaN /\ z = NaN) \/
  exists a a' d, x = Fin a /\ y = Fin a' /\ z = Fin d /\ ((a <= d /\ d <= a') \/ (a' <= d /\ d <= a)).
(** the columns that are quotients of linear ones *)
Definition rates (c : ctor) : list string :=
  match c with
  | cMOM _ => ["mom"] | cPRC _ => ["prc"] | cPRF _ _ => ["prf"] | cPOSC _ _ => ["posc"] | cVRC _ => ["vrc"] | cVCH _ _ => ["vch"]
  | _ => []
  end.
(** all three missing, or z at most (at least) w a + w' a', up to e *)
Definition at_most_sum (e w w' : Qc) (x y z : num) : Prop := (x = NaN /\ y = NaN /\ z = NaN) \/
  exists a a' d, x = Fin a /\ y = Fin a' /\ z = Fin d /\ d <= mix w w' a a' + e.
Definition at_least_sum (e w w' : Qc) (x y z : num) : Prop := (x = NaN /\ y = NaN /\ z = NaN) \/
  exists a a' d, x = Fin a /\ y = Fin a' /\ z = Fin d /\ mix w w' a a' <= d + e.
(** what must hold of the securities for their rates to exist: the denominators are positive *)
Definition rated (c : ctor) (k : nat) (h l cl v : nat -> Qc) : Prop := forall j, (j <= k)%nat ->
  match c with cVRC _ => 0 < v j | cVCH _ _ => l j < h j | _ => 0 < cl j end.
