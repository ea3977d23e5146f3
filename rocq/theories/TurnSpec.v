(** * TurnSpec: words used in the statements about simulations turned upside down and cut in two. *)
From Coq Require Import ZArith QArith Qcanon Bool List PeanoNat.
From Verif Require Import Num Pandas Sim Frame SimSpec Ind Signal Api IndSpec ApiSpec RangeSpec ValueSpec FormulaSpec SignalSpec MirrorSpec.
Import ListNotations.
Open Scope Qc_scope.

(** the prices mirrored at m / 2 *)
Definition upside_down (m : Qc) (ps : list Qc) : list Qc := map (fun p => m - p) ps.
(** the signals up to day k, then hold *)
Definition until (k : nat) (sgs : list signal) : list signal := firstn (S k) sgs ++ repeat Hold (length sgs - S k).
