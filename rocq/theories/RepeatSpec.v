(** * RepeatSpec: words used in the statements about markets that repeat themselves. *)
From Coq Require Import ZArith QArith Qcanon Bool List String PeanoNat.
From Verif Require Import Num Pandas Sim Frame Ind Signal Api IndSpec ValueSpec.
Import ListNotations.

(** the last n+1 rows up to row k' of the one and up to row k of the other indicator's data are the same, dates apart *)
Definition same_days (n : nat) (ob : obj) (k : nat) (ob' : obj) (k' : nat) : Prop :=
  forall c j, In c (required (ob_ind ob)) -> (j <= n)%nat -> given c ob' (k' - j) = given c ob (k - j).
(** every row is the row p days before *)
Definition repeats (p : nat) (ob : obj) : Prop :=
  forall c j, In c (required (ob_ind ob)) -> (j + p < days_given ob)%nat -> given c ob (j + p) = given c ob j.
