(** * QuietSpec: words used in the statements about simulations with fewer signals and about wider bands. *)
From Coq Require Import ZArith QArith Qcanon Bool List String PeanoNat.
From Verif Require Import Num Pandas Sim Frame SimSpec Ind Signal Api IndSpec ApiSpec RangeSpec ValueSpec.
Import ListNotations.
Open Scope list_scope. Open Scope string_scope. Open Scope Qc_scope.

(** hold, or the other one's signal *)
Definition quieter (s s' : signal) : Prop := s = Hold \/ s = s'.
Definition quieter_days (a b : list signal) : Prop := length a = length b /\ forall i, quieter (nth i a Hold) (nth i b Hold).
(** every signal is in a or in b, and the other one holds on that day *)
Definition divided (sgs a b : list signal) : Prop :=
  length a = length sgs /\ length b = length sgs /\
  forall i, (nth i a Hold = nth i sgs Hold /\ nth i b Hold = Hold) \/ (nth i a Hold = Hold /\ nth i b Hold = nth i sgs Hold).

(** the same indicator with a wider band or a more demanding target *)
Definition wider (c c' : ctor) : Prop :=
  match c, c' with
  | cBB p w, cBB p' w' => p = p' /\ nleb (as_number w') (as_number w) = true
  | cENV p w, cENV p' w' => p = p' /\ nleb (as_number w') (as_number w) = true
  | cPCH p, cPCH p' => (nat_arg p' <= nat_arg p)%nat
  | cPRF (VStr m) t, cPRF (VStr m') t' =>
      m = m' /\ (m = "LONG" /\ nleb (as_number t') (as_number t) = true \/ m = "SHORT" /\ nleb (as_number t) (as_number t') = true)
  | _, _ => False
  end.
(** y is missing, or x is present and not above it *)
Definition within (x y : num) : Prop := y = NaN \/ nleb x y = true.
(** x is missing, or y is present and not below it *)
Definition above (x y : num) : Prop := x = NaN \/ nleb x y = true.
(** what the band is drawn around: closes that are not negative for the envelopes, lows not above the highs for the channel *)
Definition sound_for (c : ctor) (ob : obj) : Prop :=
  match c with
  | cENV _ _ => forall j, present_le (F 0) (given "close" ob j)
  | cPCH _ => forall j, present_le (given "low" ob j) (given "high" ob j)
  | _ => True
  end.
