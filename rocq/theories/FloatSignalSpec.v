(** * FloatSignalSpec: words used in the statements about signals in binary64. *)
From Coq Require Import ZArith QArith Qcanon Reals Bool List String PeanoNat.
From Flocq Require Import IEEE754.BinarySingleNaN.
From Verif Require Import Num Pandas Sim Frame Ind Signal Api IndSpec ApiSpec RangeSpec ValueSpec SignalSpec FloatSim FloatSpec FloatAccSpec FloatEwmSpec FloatSignal.
Import ListNotations.
Open Scope list_scope. Open Scope string_scope.

(** what a rule compares: a cell of the data the indicator works on or of the published
    values, d days before the end (1 is the last day), or a whole number *)
Inductive operand := Given (c : string) (d : nat) | Shown (c : string) (d : nat) | Level (z : Z).
Definition exact_value (st : obj) (p : operand) : num :=
  match p with Given c d => SignalSpec.price c st d | Shown c d => ago c st d | Level z => level z end.
Definition float_value (inp ti : ftable) (p : operand) : f64 :=
  match p with Given c d => f_cell inp c (f_rows inp - d) | Shown c d => f_cell ti c (f_rows ti - d) | Level z => fz z 0 end.

(** number of days the rule needs, and the pairs it compares *)
Definition compared (c : ctor) : option (nat * list (operand * operand)) :=
  match level_rule c with
  | Some (n, up, _, down, _) => Some (2%nat, [(Shown n 2, Level up); (Shown n 1, Level up); (Shown n 2, Level down); (Shown n 1, Level down)])
  | None =>
  match line_rule c with
  | Some (n, _, _) => Some (2%nat, [(Given "close" 2, Shown n 2); (Given "close" 1, Shown n 1)])
  | None =>
  match band_rule c with
  | Some (up, low) => Some (1%nat, [(Given "close" 1, Shown up 1); (Given "close" 1, Shown low 1)])
  | None =>
  match three_rule c with
  | Some (n, _, _) => Some (3%nat, [(Shown n 3, Shown n 2); (Shown n 2, Shown n 1)])
  | None =>
  match c with
  | cCCI _ => Some (1%nat, [(Shown "cci" 1, Level (-100)); (Shown "cci" 1, Level 100)])
  | cDMI => Some (2%nat, [(Shown "+di" 2, Shown "-di" 2); (Shown "+di" 1, Shown "-di" 1); (Shown "adxr" 1, Level 20)])
  | cDEMA _ => Some (1%nat, [(Given "close" 1, Shown "dema" 1)])
  | cTEMA _ => Some (1%nat, [(Given "close" 1, Shown "tema" 1)])
  | cMA _ t => Some (1%nat, [(Given "close" 1, Shown ("ma-" ++ as_str t) 1)])
  | cFIB => Some (2%nat, flat_map (fun n => [(Given "close" 2, Shown n 2); (Given "close" 1, Shown n 1)]) ["rl_61.8"; "rl_50.0"; "rl_38.2"; "rl_23.6"])
  | cMFI => Some (2%nat, [(Shown "mfi" 2, Shown "mfi" 1)])
  | cMACD => Some (2%nat, [(Shown "macd" 2, Level 0); (Shown "macd" 1, Level 0); (Shown "macd" 2, Shown "signal_line" 2); (Shown "macd" 1, Shown "signal_line" 1)])
  | cPROJ _ => Some (4%nat, ([(Shown "posc" 2, Level 15); (Shown "posc" 1, Level 15); (Shown "posc" 2, Level 85); (Shown "posc" 1, Level 85)]
                        ++ map (fun d => (Shown "posc" d, Shown "trigger_line" d)) [1; 2; 3; 4]%nat)%list)
  | cQS _ => Some (4%nat, [(Shown "qstick" 4, Shown "qstick" 3); (Shown "qstick" 3, Level 0); (Shown "qstick" 2, Level 0); (Shown "qstick" 2, Shown "qstick" 1)])
  | cVOSC _ _ => Some (3%nat, [(Shown "vosc" 3, Level 0); (Shown "vosc" 1, Level 0); (Shown "vosc" 3, Shown "vosc" 2); (Shown "vosc" 2, Shown "vosc" 1)])
  | _ => None
  end end end end end.

(** numbers up to 2^32 (four billion) *)
Definition ordinary (a : num) : Prop := match a with Fin q => (- zq (2 ^ 32) <= q <= zq (2 ^ 32))%Qc | _ => True end.
(** more than d units of the fourth decimal lie between a and b, unless one is missing or
    infinite; nothing is asked when d is 0 *)
Definition clear (d : Z) (a b : num) : Prop :=
  ordinary a /\ ordinary b /\
  match a, b with Fin p, Fin q => d = 0%Z \/ (units d < p - q)%Qc \/ (units d < q - p)%Qc | _, _ => True end.
(** the floats of both operands are known up to dx and dy units, and that decides the comparison *)
Definition decided (st : obj) (inp ti : ftable) (p q : operand) : Prop :=
  exists dx dy, apart dx (float_value inp ti p) (exact_value st p) /\ apart dy (float_value inp ti q) (exact_value st q) /\
    clear (dx + dy) (exact_value st p) (exact_value st q).

(** n rows of float columns *)
Fixpoint found (l : list (string * list f64)) (c : string) : list f64 :=
  match l with [] => [] | (d, s) :: r => if String.eqb c d then s else found r c end.
Definition table (n : nat) (l : list (string * list f64)) : ftable := mkTable n (fun c k => cell (found l c) k).
(** the column of the data the object works on holds c 0, c 1, ... ticks of t ten-thousandths *)
Definition holds (col : string) (st : obj) (t : Z) (c : nat -> Z) : Prop := forall j, (j < days_given st)%nat -> given col st j = Fin (prices t c j).
(** more than m units of the fourth decimal between x and y on each of the last d days (no more
    days than the object has) *)
Definition apart_days (st : obj) (d : nat) (m : Z) (x y : nat -> num) : Prop :=
  forall e, (1 <= e <= d)%nat -> (e <= days_shown st)%nat -> clear m (x e) (y e).
