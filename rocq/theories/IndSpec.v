(** * IndSpec: words used in the statements about indicators. *)
From Coq Require Import ZArith QArith Qcanon Bool List String PeanoNat Sorted.
From Verif Require Import Num Pandas Frame Sim Ind Signal Api.
Import ListNotations.
Open Scope list_scope.

(** the first n rows *)
Definition fprefix (n : nat) (f : frame) : frame := mkFrame (cols f) (firstn n (rows f)).

(** parameters a constructor accepts *)
Definition accepted (i : ind) : Prop := exists c, check c = Ok i.

(** the required columns are there, one cell per column in every row, rows by date *)
Definition good_input (i : ind) (f : frame) : Prop :=
  (forall c, In c (required i) -> In c (cols f)) /\
  (forall r, In r (rows f) -> length (snd r) = length (cols f)) /\
  StronglySorted Z.le (index f).

(** indicators that build another indicator from their input data *)
Definition nested (i : ind) : bool :=
  match i with
  | iCO | iFOSC _ | iPROJ _ | iTSF _ | iMA _ MTimeSeries | iMA _ MVariable => true
  | _ => false
  end.

(** indicators whose calculation does not only look back *)
Definition looks_ahead (i : ind) : bool :=
  match i with iADL | iCO | iDPO _ | iFIB => true | _ => false end.

(** no missing cell in the first row *)
Definition starts_complete (f : frame) : Prop :=
  match rows f with [] => True | r :: _ => forall x, In x (snd r) -> x <> NaN end.

(** cell [c] of the row number k *)
Definition cell_at (c : string) (k : nat) (f : frame) : num := nth k (col c f) NaN.
