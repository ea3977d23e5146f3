(** * SignalSpec: words used in the statements about trading signals. *)
From Coq Require Import ZArith QArith Qcanon Bool List String PeanoNat.
From Verif Require Import Num NumFacts Pandas Sim Frame FrameSpec Ind Signal Api IndSpec ApiSpec RangeSpec ValueSpec.
Import ListNotations.
Open Scope list_scope.

(** smaller, on numbers that may be infinite or missing: nothing is smaller or larger
    than a missing number *)
Definition less (x y : num) : Prop :=
  match x, y with
  | Fin a, Fin b => (a < b)%Qc
  | NInf, Fin _ | NInf, PInf | Fin _, PInf => True
  | _, _ => False
  end.
(** the same number, not missing *)
Definition same (x y : num) : Prop :=
  match x, y with
  | Fin a, Fin b => a = b
  | PInf, PInf | NInf, NInf => True
  | _, _ => False
  end.
Definition at_most (x y : num) : Prop := less x y \/ same x y.

(** an object on which getTiSignal is called: as the constructor returned it, or with its
    data limited to a day by the simulation *)
Definition working (o : oracle) (c : ctor) (raw : rawframe) (b : bool) (st : obj) : Prop :=
  wf_raw raw /\ exists ob, snd (construct o c (RFrame raw) (VBool b)) = Ok ob /\
    (st = ob \/ exists k, st = limited k ob).

(** number of rows of getTiData *)
Definition days_shown (st : obj) : nat := List.length (rows (get_ti_data st)).
(** the value shown d days before the end: [ago c st 1] is the last one, [ago c st 2] the one before *)
Definition ago (c : string) (st : obj) (d : nat) : num := shown c st (days_shown st - d).
(** the same for the data the indicator works on *)
Definition price (c : string) (st : obj) (d : nat) : num := given c st (days_given st - d).

(** the signal is sa exactly when A holds, sb exactly when B holds, hold otherwise; with
    fewer than n days it is hold *)
Definition answers (st : obj) (n : nat) (sa : signal) (A : Prop) (sb : signal) (B : Prop) : Prop :=
  ((days_shown st < n)%nat -> get_ti_signal st = Ok Hold) /\
  ((n <= days_shown st)%nat ->
     (get_ti_signal st = Ok sa <-> A) /\ (get_ti_signal st = Ok sb <-> B) /\
     (get_ti_signal st = Ok Hold <-> ~ A /\ ~ B)).
(** one signal only *)
Definition answers1 (st : obj) (n : nat) (sa : signal) (A : Prop) : Prop :=
  ((days_shown st < n)%nat -> get_ti_signal st = Ok Hold) /\
  ((n <= days_shown st)%nat ->
     (get_ti_signal st = Ok sa <-> A) /\ (get_ti_signal st = Ok Hold <-> ~ A)).

(** yesterday on one side of a level, today on the other *)
Definition rose_through (x : nat -> num) (level : num) : Prop := less (x 2%nat) level /\ less level (x 1%nat).
Definition fell_through (x : nat -> num) (level : num) : Prop := less level (x 2%nat) /\ less (x 1%nat) level.
(** yesterday x on one side of y, today on the other *)
Definition crossed_above (x y : nat -> num) : Prop := less (x 2%nat) (y 2%nat) /\ less (y 1%nat) (x 1%nat).
Definition crossed_below (x y : nat -> num) : Prop := less (y 2%nat) (x 2%nat) /\ less (x 1%nat) (y 1%nat).
(** three days in a row *)
Definition rising3 (x : nat -> num) : Prop := less (x 3%nat) (x 2%nat) /\ less (x 2%nat) (x 1%nat).
Definition falling3 (x : nat -> num) : Prop := less (x 2%nat) (x 3%nat) /\ less (x 1%nat) (x 2%nat).
Definition level (z : Z) : num := Fin (zq z).

(** the first column of the data the indicator works on, whatever it holds *)
Definition first_column (st : obj) (j : nat) : num := nth 0 (snd (nth j (rows (ob_input st)) (0%Z, []))) NaN.
(** the last n values are f 1 (the last), f 2, ..., f n *)
Definition latest (x : nat -> num) (n : nat) (f : nat -> Qc) : Prop := forall d, (1 <= d <= n)%nat -> x d = Fin (f d).
(** mean of f 1 ... f n *)
Definition mean_of (f : nat -> Qc) (n : nat) : Qc := mean (fun j => f (S j)) n.
(** a column is missing before row a and has the values f from there on *)
Definition listed (x : nat -> num) (n a : nat) (f : nat -> Qc) : Prop :=
  forall j, (j < n)%nat -> x j = if (j <? a)%nat then NaN else Fin (f j).
(** x 1 is present and no value of the last n days is smaller / larger *)
Definition lowest_now (x : nat -> num) (n : nat) : Prop := x 1%nat <> NaN /\ forall d, (1 <= d <= n)%nat -> ~ less (x d) (x 1%nat).
Definition highest_now (x : nat -> num) (n : nat) : Prop := x 1%nat <> NaN /\ forall d, (1 <= d <= n)%nat -> ~ less (x 1%nat) (x d).
(** d days ago is the last day with property P, counted from day a on *)
Definition latest_day (a : nat) (n : nat) (P : nat -> Prop) (d : nat) : Prop :=
  (a <= d <= n)%nat /\ P d /\ forall e, (a <= e < d)%nat -> ~ P e.
(** the lowest of the last n values was first reached d days ago *)
Definition lowest_first (x : nat -> num) (n d : nat) : Prop :=
  (1 <= d <= n)%nat /\ exists m, x d = Fin m /\
  forall e q, (1 <= e <= n)%nat -> x e = Fin q -> (m <= q)%Qc /\ ((d < e)%nat -> (m < q)%Qc).

Open Scope string_scope.
(** ** the rules written in the comments of the code *)
(** column, level and signal when it rises through the level, level and signal when it falls through *)
Definition level_rule (c : ctor) : option (string * Z * signal * Z * signal) :=
  match c with
  | cCMO _ => Some ("cmo", 50%Z, Sell, (-50)%Z, Buy)
  | cDPO _ => Some ("dpo", 0%Z, Buy, 0%Z, Sell)
  | cEMV _ => Some ("emv_ma", 0%Z, Buy, 0%Z, Sell)
  | cFOSC _ => Some ("fosc", 0%Z, Sell, 0%Z, Buy)
  | cIMI _ => Some ("imi", 70%Z, Sell, 30%Z, Buy)
  | cKO => Some ("ko", 0%Z, Sell, 0%Z, Buy)
  | cLRS _ => Some ("lrs", 0%Z, Sell, 0%Z, Buy)
  | cPOSC _ _ => Some ("posc", 0%Z, Buy, 0%Z, Sell)
  | cRMI _ _ => Some ("rmi", 70%Z, Sell, 30%Z, Buy)
  | cRSI _ => Some ("rsi", 70%Z, Sell, 30%Z, Buy)
  | cRVI _ => Some ("rvi", 60%Z, Sell, 40%Z, Buy)
  | cSMI _ _ _ => Some ("smi", 40%Z, Sell, (-40)%Z, Buy)
  | cSWI => Some ("swi", 0%Z, Sell, 0%Z, Buy)
  | _ => None
  end.
(** line the close is compared with; signal when the close crosses above it, and below it *)
Definition line_rule (c : ctor) : option (string * signal * signal) :=
  match c with
  | cLRI _ => Some ("lri", Sell, Buy)
  | cTSF _ => Some ("tsf", Sell, Buy)
  | cWC => Some ("wc", Sell, Buy)
  | cWS _ => Some ("ws", Sell, Buy)
  | cPSAR => Some ("sar", Buy, Sell)
  | _ => None
  end.
(** upper and lower line the close may leave *)
Definition band_rule (c : ctor) : option (string * string) :=
  match c with
  | cBB _ _ | cENV _ _ => Some ("upper_band", "lower_band")
  | cPCH _ => Some ("highest_high", "lowest_low")
  | _ => None
  end.
(** column; signal after three rising days, after three falling days *)
Definition three_rule (c : ctor) : option (string * signal * signal) :=
  match c with
  | cOBV => Some ("obv", Sell, Buy)
  | cPVT => Some ("pvt", Sell, Buy)
  | cPRC _ => Some ("prc", Sell, Buy)
  | cVRC _ => Some ("vrc", Sell, Buy)
  | cVCH _ _ => Some ("vch", Buy, Sell)
  | _ => None
  end.
