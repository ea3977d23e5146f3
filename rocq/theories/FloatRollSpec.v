(** * FloatRollSpec: what the statements about rolling means in binary64 speak of. *)
From Coq Require Import ZArith Bool List.
From Verif Require Import FloatSim.

(** prices of f i ten-thousandths on n rows: price * n stays below 2^43 ten-thousandths, which is
    879 million (ten years of daily prices up to 350000) *)
Definition steady (f : nat -> Z) (n : nat) : Prop :=
  forall i, (i < n)%nat -> ((Z.abs (f i) + 1) * Z.of_nat n <= 2 ^ 43)%Z.
(** whole numbers, such as volumes, as n floats *)
Definition whole (v : nat -> Z) (n : nat) : list f64 := map (fun i => fz (v i) 0) (seq 0 n).
