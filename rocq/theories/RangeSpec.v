(** * RangeSpec: words used in the statements about the values of indicators. *)
From Coq Require Import ZArith QArith Qcanon Bool List String PeanoNat.
From Verif Require Import Num NumFacts Pandas Frame FrameSpec Ind IndSpec ApiSpec.
Import ListNotations.
Open Scope list_scope. Open Scope Qc_scope.

Definition zq (z : Z) : Qc := Q2Qc (inject_Z z).
(** missing, or a number from lo to hi; never infinite *)
Definition between (lo hi : Qc) (x : num) : Prop := x = NaN \/ exists q, x = Fin q /\ lo <= q /\ q <= hi.
Definition within (lo hi : Z) (x : num) : Prop := between (zq lo) (zq hi) x.

(** wherever both are present *)
Definition present_le (a b : num) : Prop := a = NaN \/ b = NaN \/ nleb a b = true.
(** what is assumed about numpy's square root and scipy's window weights *)
Definition good_sqrt (o : oracle) : Prop := forall q, 0 <= q -> 0 <= o_sqrt o q.
Definition good_window (o : oracle) : Prop := forall n, length (o_win o n) = n /\ forall w, In w (o_win o n) -> 0 < w.

(** ** the caller's data, row by row *)
Definition raw_cell (f : rawframe) (c : string) (r : row) : num :=
  match position c (str_labels f) with Some k => nth k (snd r) NaN | None => NaN end.
Definition day_le (a b : string) (f : rawframe) : Prop :=
  forall r, In r (r_rows f) -> present_le (raw_cell f a r) (raw_cell f b r).
(** the close of a day lies between its low and its high *)
Definition proper_days (f : rawframe) : Prop := day_le "low" "close" f /\ day_le "close" "high" f.
Definition no_negative (c : string) (f : rawframe) : Prop :=
  forall r, In r (r_rows f) -> present_le (F 0) (raw_cell f c r).
(** every cell of the columns is a finite number *)
Definition complete (cs : list string) (f : rawframe) : Prop :=
  forall c r, In c cs -> In r (r_rows f) -> isfin (raw_cell f c r) = true.
(** nothing is filled in: filling is off, or no cell of the columns is missing *)
Definition unfilled (cs : list string) (b : bool) (f : rawframe) : Prop :=
  b = false \/ forall c r, In c cs -> In r (r_rows f) -> raw_cell f c r <> NaN.
(** at most n decimal places *)
Definition decimals (n : nat) (c : string) (f : rawframe) : Prop :=
  forall r q, In r (r_rows f) -> raw_cell f c r = Fin q -> has_decimals n q.
