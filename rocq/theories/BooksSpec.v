(** * BooksSpec: words used in the statements about the books of a simulation; all are read off the returned rows. *)
From Coq Require Import ZArith QArith Qcanon Bool List PeanoNat.
From Verif Require Import Num Pandas Sim Frame SimSpec RangeSpec.
Import ListNotations.
Open Scope Qc_scope.

(** stocks owned (or, if negative, owed) at the end of day i *)
Definition held (d : list simrow) (i : nat) : Qc := Q2Qc (inject_Z (Z.of_nat (open_longs d i) - Z.of_nat (open_shorts d i))).
(** what these stocks gained from each day up to i to the next *)
Definition moves (d : list simrow) (i : nat) : Qc := sum_days i (fun j => held d j * (price d (S j) - price d j)).
(** what the open positions would bring on day i *)
Definition on_paper (d : list simrow) (i : nat) : Qc := sum_days (S i) (fun j => if still_open d j i then profit d j i else 0).
(** price paid for the open long positions, price received for the open short ones *)
Definition paid (d : list simrow) (i : nat) : Qc := sum_days (S i) (fun j => if still_open d j i then match act d j with ALong => price d j | _ => 0 end else 0).
Definition received (d : list simrow) (i : nat) : Qc := sum_days (S i) (fun j => if still_open d j i then match act d j with AShort => price d j | _ => 0 end else 0).
(** positions opened and closed again by day i *)
Definition trades_closed (d : list simrow) (i : nat) : nat := count_days (S i) (fun j => match act d j with ANone => false | _ => negb (still_open d j i) end).
