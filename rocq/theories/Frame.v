(** * Frame: DataFrames, input validation and missing-value filling.

    Models tti/utils/data_validation.py and tti/utils/data_preprocessing.py.
    Timestamps of a DatetimeIndex are integers.  NaT in the index, time zones and
    dtypes other than "numeric / not numeric" are not modelled. *)
From Coq Require Import ZArith QArith Qcanon Bool List String Ascii PeanoNat.
From Verif Require Import Num Pandas.
Import ListNotations.
Open Scope list_scope.

(** exceptions (tti/utils/exceptions.py:9-68 and python's own) *)
Inductive err :=
| WrongType (param : string)
| WrongValue (param : string)
| NotEnough (indicator : string) (required got : nat)
| NotValidSim (param : string)
| TypeErr | ValueErr | AttrErr | KeyErr | IndexErr.

Inductive res (A : Type) := Ok (a : A) | Err (e : err).
Arguments Ok {A}. Arguments Err {A}.

Definition bind {A B} (x : res A) (f : A -> res B) : res B :=
  match x with Ok a => f a | Err e => Err e end.
Notation "'do' x <- a ; b" := (bind a (fun x => b)) (at level 200, x pattern, a at level 100, b at level 200).
(** a positional read that may raise IndexError *)
Definition get {A} (o : option A) : res A := match o with Some a => Ok a | None => Err IndexErr end.

(** ** frames held by an indicator *)
Definition row := (Z * list num)%type.
Record frame := mkFrame { cols : list string; rows : list row }.

Definition index (f : frame) : list Z := map fst (rows f).

Fixpoint position (name : string) (l : list string) : option nat :=
  match l with
  | [] => None
  | x :: r => if String.eqb name x then Some 0%nat
              else match position name r with Some k => Some (S k) | None => None end
  end.

(** df[name] *)
Definition col (name : string) (f : frame) : series :=
  match position name (cols f) with
  | Some k => map (fun r => nth k (snd r) NaN) (rows f)
  | None => []
  end.

(** df.iloc[:, k] *)
Definition icol (k : nat) (f : frame) : series := map (fun r => nth k (snd r) NaN) (rows f).

(** pd.DataFrame(index=..., data={name: series, ...}) *)
Definition mk_ti (idx : list Z) (cs : list (string * series)) : frame :=
  mkFrame (map fst cs)
          (map (fun it => (snd it, map (fun c => nth (fst it) (snd c) NaN) cs))
               (combine (seq 0 (List.length idx)) idx)).

(** df[name] = series, for a new column *)
Definition add_col (name : string) (s : series) (f : frame) : frame :=
  mkFrame (cols f ++ [name])
          (map (fun p => (fst (fst p), snd (fst p) ++ [snd p])) (combine (rows f) s)).

(** df[df.index <= t] *)
Definition upto (t : Z) (f : frame) : frame :=
  mkFrame (cols f) (filter (fun r => Z.leb (fst r) t) (rows f)).

(** ** what the caller passes *)
Inductive label := LStr (s : string) | LOther (z : Z).
Record rawframe := mkRaw {
  r_datetime : bool;                (* index is a pd.DatetimeIndex *)
  r_labels : list label;
  r_numeric : list bool;            (* per column: numeric dtype *)
  r_rows : list row }.
Inductive rawval := RFrame (f : rawframe) | RNotFrame.

(** str.lower(), ASCII letters only *)
Definition lower_ascii (c : ascii) : ascii :=
  let n := nat_of_ascii c in
  if (65 <=? n) && (n <=? 90) then ascii_of_nat (n + 32) else c.
Fixpoint lower (s : string) : string :=
  match s with EmptyString => EmptyString | String c r => String (lower_ascii c) (lower r) end.

(** [c.lower() for c in input_data.columns]; a label that is not a str has no
    method lower (AttributeError, before the assignment happens)
    (data_validation.py:67) *)
Fixpoint lower_labels (l : list label) : option (list string) :=
  match l with
  | [] => Some []
  | LStr s :: r => match lower_labels r with Some t => Some (lower s :: t) | None => None end
  | LOther _ :: _ => None
  end.

Definition count_label (c : string) (l : list string) : nat :=
  List.length (filter (String.eqb c) l).
Definition mem (c : string) (l : list string) : bool := existsb (String.eqb c) l.

(** data_validation.py:71-91.  A label that occurs twice makes input_data[column]
    a DataFrame, which is not numeric, and building the message then fails. *)
Fixpoint check_required (req : list string) (labels : list string) (numeric : list bool) : res unit :=
  match req with
  | [] => Ok tt
  | c :: r =>
      match position c labels with
      | None => Err ValueErr
      | Some k =>
          if 2 <=? count_label c labels then Err AttrErr
          else if nth k numeric false then check_required r labels numeric
          else Err ValueErr
      end
  end.

(** data_validation.py:94-96: dropping by label removes every copy at once, so a
    second copy of a label that is not required raises KeyError *)
Fixpoint check_drops (req : list string) (todo : list string) (dropped : list string) : res unit :=
  match todo with
  | [] => Ok tt
  | c :: r =>
      if mem c req then check_drops req r dropped
      else if mem c dropped then Err KeyErr
      else check_drops req r (c :: dropped)
  end.

(** the cells at the positions of [keep] *)
Fixpoint select {A} (keep : list bool) (l : list A) : list A :=
  match keep, l with
  | true :: k, x :: r => x :: select k r
  | false :: k, _ :: r => select k r
  | _, _ => []
  end.

Definition drop_cols (req : list string) (labels : list string) (rs : list row) : frame :=
  let keep := map (fun c => mem c req) labels in
  mkFrame (select keep labels) (map (fun r => (fst r, select keep (snd r))) rs).

(** sort_index(ascending=True): insertion sort on the timestamp (stable; pandas
    leaves the order of equal timestamps unspecified) *)
Fixpoint insert (r : row) (l : list row) : list row :=
  match l with
  | [] => [r]
  | x :: t => if Z.leb (fst r) (fst x) then r :: x :: t else x :: insert r t
  end.
Definition sort_rows (l : list row) : list row := fold_right insert [] l.
Definition sort_index (f : frame) : frame := mkFrame (cols f) (sort_rows (rows f)).

(** ffill / bfill: a missing cell takes the value of the neighbouring row *)
Definition fill_cells (from cells : list num) : list num :=
  szip (fun p x => if isnan x then p else x) from cells.

Fixpoint ffill_from (prev : list num) (l : list row) : list row :=
  match l with
  | [] => []
  | (t, c) :: r => let c' := fill_cells prev c in (t, c') :: ffill_from c' r
  end.
Definition ffill (l : list row) : list row :=
  match l with [] => [] | (t, c) :: r => (t, c) :: ffill_from c r end.

Fixpoint bfill (l : list row) : list row :=
  match l with
  | [] => []
  | (t, c) :: r =>
      match bfill r with
      | [] => [(t, c)]
      | (t', c') :: r' => (t, fill_cells c' c) :: (t', c') :: r'
      end
  end.

(** data_preprocessing.py:27-32 *)
Definition fill_missing (f : frame) : frame :=
  let g := sort_index f in mkFrame (cols g) (bfill (ffill (rows g))).

(** validateInputData (data_validation.py:15-104).  Returns the caller's object
    as it is afterwards, and the outcome. *)
Definition validate (v : rawval) (req : list string) (fill : bool) : rawval * res frame :=
  match v with
  | RNotFrame => (v, Err (WrongType "input_data"))                       (* :50-51 *)
  | RFrame f =>
      if negb (r_datetime f) then (v, Err TypeErr)                         (* :54-60 *)
      else if (match r_rows f with [] => true | _ => false end)
              || (match r_labels f with [] => true | _ => false end)
      then (v, Err ValueErr)                                               (* :63-64 *)
      else match lower_labels (r_labels f) with
           | None => (v, Err AttrErr)                                      (* :67 *)
           | Some labels =>
               let v' := RFrame (mkRaw (r_datetime f) (map LStr labels) (r_numeric f) (r_rows f)) in
               (v',
                do _ <- check_required req labels (r_numeric f);           (* :71-91 *)
                do _ <- check_drops req labels [];                         (* :94-96 *)
                let g := sort_index (drop_cols req labels (r_rows f)) in   (* :99 *)
                Ok (if fill then fill_missing g else g))                   (* :101-104 *)
           end
  end.
