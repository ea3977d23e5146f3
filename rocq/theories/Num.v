(** * Num: the numbers found in DataFrame cells.

    The python code computes with numpy float64.  The model keeps the special
    values NaN, +inf and -inf with their IEEE-754 behaviour, and replaces finite
    floats by exact rationals ([Qc], canonical rationals, Leibniz equality).
    Not modelled: binary rounding, overflow to infinity, the sign of zero (a
    zero denominator behaves as +0.0). *)
From Coq Require Import ZArith QArith Qcanon Bool List.
Import ListNotations.
Open Scope Qc_scope.

Inductive num : Type :=
| NaN
| PInf
| NInf
| Fin (q : Qc).

(** literals: [F z] is the integer z, [D n d] the decimal n/d *)
Definition F (z : Z) : num := Fin (Q2Qc (inject_Z z)).
Definition D (n : Z) (d : positive) : num := Fin (Q2Qc (n # d)).

Definition qleb (x y : Qc) : bool := Qle_bool x y.
Definition qltb (x y : Qc) : bool := negb (Qle_bool y x).
Definition qeqb (x y : Qc) : bool := Qeq_bool x y.

Definition isnan (x : num) : bool := match x with NaN => true | _ => false end.
Definition isfin (x : num) : bool := match x with Fin _ => true | _ => false end.

(** IEEE unary minus, addition, subtraction *)
Definition nneg (x : num) : num :=
  match x with NaN => NaN | PInf => NInf | NInf => PInf | Fin q => Fin (- q) end.

Definition nadd (x y : num) : num :=
  match x, y with
  | NaN, _ | _, NaN => NaN
  | PInf, NInf | NInf, PInf => NaN
  | PInf, _ | _, PInf => PInf
  | NInf, _ | _, NInf => NInf
  | Fin a, Fin b => Fin (a + b)
  end.

Definition nsub (x y : num) : num := nadd x (nneg y).

(** infinity times a finite number, by the sign of the number *)
Definition infmul (pos : bool) (q : Qc) : num :=
  if qeqb q 0 then NaN
  else if Bool.eqb pos (qltb 0 q) then PInf else NInf.

(** IEEE multiplication *)
Definition nmul (x y : num) : num :=
  match x, y with
  | NaN, _ | _, NaN => NaN
  | PInf, PInf | NInf, NInf => PInf
  | PInf, NInf | NInf, PInf => NInf
  | PInf, Fin q | Fin q, PInf => infmul true q
  | NInf, Fin q | Fin q, NInf => infmul false q
  | Fin a, Fin b => Fin (a * b)
  end.

(** IEEE division; a zero divisor is +0.0 *)
Definition ndiv (x y : num) : num :=
  match x, y with
  | NaN, _ | _, NaN => NaN
  | PInf, PInf | NInf, NInf | PInf, NInf | NInf, PInf => NaN
  | Fin _, PInf | Fin _, NInf => Fin 0
  | PInf, Fin b => if qltb b 0 then NInf else PInf
  | NInf, Fin b => if qltb b 0 then PInf else NInf
  | Fin a, Fin b =>
      if qeqb b 0 then (if qeqb a 0 then NaN else if qltb 0 a then PInf else NInf)
      else Fin (a / b)
  end.

Definition qabs (q : Qc) : Qc := if qltb q 0 then - q else q.
Definition nabs (x : num) : num :=
  match x with NaN => NaN | PInf => PInf | NInf => PInf | Fin q => Fin (qabs q) end.

(** IEEE comparisons: false as soon as one side is NaN *)
Definition nltb (x y : num) : bool :=
  match x, y with
  | NaN, _ | _, NaN => false
  | PInf, _ => false
  | _, NInf => false
  | NInf, _ => true
  | _, PInf => true
  | Fin a, Fin b => qltb a b
  end.

Definition neqb (x y : num) : bool :=
  match x, y with
  | PInf, PInf | NInf, NInf => true
  | Fin a, Fin b => qeqb a b
  | _, _ => false
  end.

Definition nleb (x y : num) : bool := nltb x y || neqb x y.
Definition ngtb (x y : num) : bool := nltb y x.
Definition ngeb (x y : num) : bool := nleb y x.

(** python's builtin two-argument min/max: keep the first unless the second is
    strictly better, so a NaN in first place stays *)
Definition pymin (a b : num) : num := if nltb b a then b else a.
Definition pymax (a b : num) : num := if nltb a b then b else a.
Definition pymin_list (x : num) (l : list num) : num := fold_left pymin l x.
Definition pymax_list (x : num) (l : list num) : num := fold_left pymax l x.

(** numpy maximum/minimum: NaN propagates *)
Definition npmax (a b : num) : num :=
  if isnan a || isnan b then NaN else if nltb a b then b else a.
Definition npmin (a b : num) : num :=
  if isnan a || isnan b then NaN else if nltb b a then b else a.

(** round half to even, to an integer *)
Definition rhe (q : Q) : Z :=
  let n := Qnum q in
  let d := Zpos (Qden q) in
  let f := Z.div n d in
  let r := Z.modulo n d in
  match Z.compare (2 * r) d with
  | Lt => f
  | Gt => (f + 1)%Z
  | Eq => if Z.even f then f else (f + 1)%Z
  end.

Definition pow10 (k : nat) : Z := Z.pow 10 (Z.of_nat k).

(** round to k decimals (numpy.round / Series.round / builtin round) *)
Definition qround (k : nat) (q : Qc) : Qc :=
  let s := Q2Qc (inject_Z (pow10 k)) in
  Q2Qc (inject_Z (rhe (this (q * s)%Qc))) / s.

Definition nround (k : nat) (x : num) : num :=
  match x with Fin q => Fin (qround k q) | _ => x end.

(** truncation toward zero, as in a float -> int64 cast *)
Definition qtrunc (q : Qc) : Qc := Q2Qc (inject_Z (Z.quot (Qnum q) (Zpos (Qden q)))).
