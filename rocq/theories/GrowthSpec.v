(** * GrowthSpec: words used in the statements about a market that grows by the same factor every day. *)
From Coq Require Import ZArith QArith Qcanon Bool List String PeanoNat.
From Verif Require Import Num NumFacts Pandas Sim Frame FrameSpec Ind Signal Api IndSpec ApiSpec RangeSpec ValueSpec FormulaSpec.
Import ListNotations.
Open Scope list_scope. Open Scope string_scope. Open Scope Qc_scope.

(** up to row k every value is g times the one before *)
Definition grows (f : nat -> Qc) (k : nat) (g : Qc) : Prop := forall j, (j <= k)%nat -> f j = f O * g ^ j.
(** the column of the market grows by the factor g up to row k *)
Definition grown (name : string) (ob : obj) (k : nat) (g : Qc) : Prop := exists x, known (given name ob) k x /\ grows x k g.
(** all the columns do, prices by g and the volume by w *)
Definition all_grown (names : list string) (ob : obj) (k : nat) (g w : Qc) : Prop :=
  forall name, In name names -> grown name ob k (if String.eqb name "volume" then w else g).

(** the columns that have the same value every day on such a market: first row, and the columns of the market they use *)
Definition settled (c : ctor) : list (string * nat * list string) :=
  match c with
  | cMOM p => [("mom", nat_arg p, ["close"])]
  | cPRC p => [("prc", nat_arg p, ["close"])]
  | cVRC p => [("vrc", nat_arg p, ["volume"])]
  | cPOSC p _ => [("posc", (nat_arg p - 1)%nat, ["close"])]
  | cVHF p => [("vhf", nat_arg p, ["close"])]
  | cCMO p => [("cmo", nat_arg p, ["close"])]
  | cIMI p => [("imi", (nat_arg p - 1)%nat, ["open"; "close"])]
  | cWR p => [("wr", (nat_arg p - 1)%nat, ["high"; "low"; "close"])]
  | cSO p q _ _ => [("%K", (nat_arg p + nat_arg q - 2)%nat, ["high"; "low"; "close"])]
  | cCCI p => [("cci", (nat_arg p - 1)%nat, ["high"; "low"; "close"])]
  | _ => []
  end.

(** the indicators that only signal when their value changes *)
Definition never_signals (c : ctor) : bool :=
  match c with cMOM _ | cPRC _ | cVRC _ | cPOSC _ _ | cVHF _ | cCMO _ | cIMI _ | cWR _ => true | _ => false end.
