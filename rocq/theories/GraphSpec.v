(** * GraphSpec: which prices a graph shows and how many plots it has, written from
    the documentation of the indicators and independently of [graph_props]. *)
From Coq Require Import List String.
From Verif Require Import Ind.
Import ListNotations.
Open Scope string_scope.

Definition prices_shown (i : ind) : list string :=
  match i with
  | iEMV _ | iVCH _ _ => []
  | iMFI | iVOSC _ _ | iVRC _ => ["volume"]
  | iRVI _ => ["high"; "low"]
  | iMI => ["close"; "9_ema"]
  | iMP _ => ["close_ema"]
  | _ => ["close"]
  end.
(** indicators measured in the price, and the two shown without any price *)
Definition one_plot (i : ind) : bool :=
  match i with
  | iBB _ _ | iDEMA _ | iENV _ _ | iFIB | iICH | iLRI _ | iMA _ _ | iMP _ | iPSAR | iPCH _ | iPB _
  | iTSF _ | iTEMA _ | iTP _ | iWC | iWS _ => true
  | iEMV _ | iVCH _ _ => true
  | _ => false
  end.
