(** * SimSpec: what a user reads off the rows a simulation returns.

    Everything here is a function of the returned rows only (signal, action,
    stock value), not of the simulator's internal arrays. *)
From Coq Require Import ZArith QArith Qcanon Bool List PeanoNat.
From Verif Require Import Num Pandas Frame Sim.
Import ListNotations.
Open Scope Qc_scope.

Definition row_ (d : list simrow) (i : nat) : simrow := nth i d simrow0.
(** the price of day i as a rational (prices are finite in the theorems) *)
Definition qv (x : num) : Qc := match x with Fin q => q | _ => 0 end.
Definition price (d : list simrow) (i : nat) : Qc := qv (x_stock (row_ d i)).
Definition act (d : list simrow) (i : nat) : action :=
  match x_action (row_ d i) with Some a => a | None => ANone end.

(** would the position opened on day j earn money if closed on day k? *)
Definition profitable (d : list simrow) (j k : nat) : bool :=
  match act d j with
  | ALong => qltb (price d j) (price d k)
  | AShort => qltb (price d k) (price d j)
  | ANone => false
  end.

(** a position was opened on day j and no later day up to i was profitable *)
Definition still_open (d : list simrow) (j i : nat) : bool :=
  match act d j with ANone => false | _ => true end
  && (j <=? i)%nat
  && forallb (fun k => negb (profitable d j k)) (seq (S j) (i - j)).

(** k is the first profitable day of the position opened on day j *)
Definition closed_on (d : list simrow) (j k : nat) : bool :=
  (j <? k)%nat && still_open d j (k - 1) && profitable d j k.

Definition opened_exposure (f : Qc) (d : list simrow) (j : nat) : Qc :=
  match act d j with ALong => price d j | AShort => f * price d j | ANone => 0 end.

Definition profit (d : list simrow) (j k : nat) : Qc :=
  match act d j with
  | ALong => price d k - price d j
  | AShort => price d j - price d k
  | ANone => 0
  end.

(** sum over days *)
Definition sum_days (n : nat) (g : nat -> Qc) : Qc := qsum (map g (seq 0 n)).
Definition count_days (n : nat) (p : nat -> bool) : nat := List.length (filter p (seq 0 n)).

(** the sum of the exposures of the positions opened before day n that are still
    open on day i *)
Definition spec_exposure_before (f : Qc) (d : list simrow) (n i : nat) : Qc :=
  sum_days n (fun j => if still_open d j i then opened_exposure f d j else 0).
Definition spec_exposure (f : Qc) (d : list simrow) (i : nat) : Qc :=
  spec_exposure_before f d (S i) i.

Definition spec_earnings (d : list simrow) (i : nat) : Qc :=
  sum_days (S i) (fun k => sum_days k (fun j => if closed_on d j k then profit d j k else 0)).

Definition open_longs (d : list simrow) (i : nat) : nat :=
  count_days (S i) (fun j => still_open d j i && match act d j with ALong => true | _ => false end).
Definition open_shorts (d : list simrow) (i : nat) : nat :=
  count_days (S i) (fun j => still_open d j i && match act d j with AShort => true | _ => false end).

(** does adding [x] keep the exposure within the limit? *)
Definition fits (m : option num) (x : Qc) : bool :=
  match m with None => true | Some v => negb (nltb v (Fin x)) end.
