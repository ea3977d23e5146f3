(** * MoveDaySpec: the rules whose advice does not change when one amount is added to all prices. *)
From Coq Require Import List String.
From Verif Require Import Num Pandas Sim Frame FrameSpec Ind Signal Api ApiSpec RangeSpec ValueSpec FormulaSpec SignalSpec MirrorSpec MoveSpec.
Import ListNotations.

(** the even-handed rules of C81, the rules about the size of moves, and the averages that only ever buy *)
Definition keeps_advice (c : ctor) (ob : obj) : Prop :=
  even_handed c ob \/ c = cMFI \/ (exists p q, c = cVCH p q) \/ (exists p, c = cDEMA p) \/ (exists p t, c = cMA p (VStr t) /\ price_like c <> []).
