(** * OneWaySpec: words used in the statements about simulations on a market that only rises or only falls. *)
From Coq Require Import ZArith QArith Qcanon Bool List String PeanoNat.
From Verif Require Import Num Pandas Sim Frame SimSpec Ind Signal Api IndSpec ApiSpec RangeSpec ValueSpec.
Import ListNotations.
Open Scope list_scope. Open Scope string_scope. Open Scope Qc_scope.

(** up to day i every price is above (below) the one of the day before *)
Definition only_rises (ps : list Qc) (i : nat) : Prop := forall j, (j < i)%nat -> nth j ps 0 < nth (S j) ps 0.
Definition only_falls (ps : list Qc) (i : nat) : Prop := forall j, (j < i)%nat -> nth (S j) ps 0 < nth j ps 0.
(** a long (short) position was opened on day j *)
Definition bought (d : list simrow) (j : nat) : bool := match act d j with ALong => true | _ => false end.
Definition sold (d : list simrow) (j : nat) : bool := match act d j with AShort => true | _ => false end.
(** x if b, otherwise nothing *)
Definition when (b : bool) (x : Qc) : Qc := if b then x else 0.

(** the prices of the simulation are the closes the indicator was given *)
Definition own_closes (ob : obj) (st : sim) : Prop := forall k, (k < days_given ob)%nat -> x_stock (row_ (data st) k) = given "close" ob k.
(** the close of day j of a market that starts at q and moves by d every day *)
Definition on_a_line (ob : obj) (q d : Qc) : Prop := forall j, (j < days_given ob)%nat -> given "close" ob j = Fin (q + d * nq j).
(** and with highs u above and lows s below *)
Definition candles_on_a_line (ob : obj) (q d u s : Qc) : Prop := forall j, (j < days_given ob)%nat ->
  given "close" ob j = Fin (q + d * nq j) /\ given "high" ob j = Fin (q + d * nq j + u) /\ given "low" ob j = Fin (q + d * nq j - s).
(** first day with a value of the simple or triangular average *)
Definition first_average (t : string) (p : pyval) : nat := if String.eqb t "simple" then (nat_arg p - 1)%nat else (2 * (nat_arg p - 1))%nat.
(** the sum of the last n of the prices that end at c and moved by d *)
Definition stacked (n : nat) (c d : Qc) : Qc := nq n * c - d * (nq n * (nq n - 1) / zq 2).
