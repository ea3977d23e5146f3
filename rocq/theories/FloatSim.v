(** * FloatSim: class TradingSimulation in IEEE-754 binary64.

    The same methods as in Sim.v, on the numbers numpy really computes with:
    Flocq's binary64 with one NaN, rounding to nearest even.  [npsum] is np.sum; the
    order in which it adds is left open.  max_exposure and short_exposure_factor
    given as python ints are taken as the binary64 of the same value. *)
From Coq Require Import ZArith Bool List PeanoNat Permutation.
From Flocq Require Import Core.Zaux IEEE754.BinarySingleNaN.
From Verif Require Import Sim.
Import ListNotations.
Open Scope list_scope.

Lemma prec_pos : (0 < 53)%Z. Proof. reflexivity. Qed.
Lemma prec_lt : (53 < 1024)%Z. Proof. reflexivity. Qed.

Definition f64 := binary_float 53 1024.
Definition f0 : f64 := B754_zero false.
Definition fnan : f64 := B754_nan.
Definition fadd : f64 -> f64 -> f64 := @Bplus 53 1024 prec_pos prec_lt mode_NE.
Definition fsub : f64 -> f64 -> f64 := @Bminus 53 1024 prec_pos prec_lt mode_NE.
Definition fmul : f64 -> f64 -> f64 := @Bmult 53 1024 prec_pos prec_lt mode_NE.
Definition fdiv : f64 -> f64 -> f64 := @Bdiv 53 1024 prec_pos prec_lt mode_NE.
Definition fltb : f64 -> f64 -> bool := Bltb.
(** m * 2^e, rounded: an integer converted to float is [fz m 0] *)
Definition fz (m e : Z) : f64 := @binary_normalize 53 1024 prec_pos prec_lt mode_NE m e false.

(** what np.sum may return: the cells added in any order and grouping *)
Inductive added : list f64 -> f64 -> Prop :=
| added_none : added [] f0
| added_one x : added [x] x
| added_app a b x y : added a x -> added b y -> added (a ++ b) (fadd x y)
| added_perm a b x : Permutation a b -> added a x -> added b x.

Record fslot := mkFslot { fs_pos : position; fs_status : status; fs_exposure : f64 }.
Definition fslot0 : fslot := mkFslot PNone SNone f0.
Record frow := mkFrow {
  y_signal : option signal;
  y_action : option action;
  y_stock : f64;
  y_exposure : f64;
  y_portfolio_value : f64;
  y_earnings : f64;
  y_balance : f64 }.
Definition frow0 : frow := mkFrow None None fnan fnan fnan fnan fnan.
Record fsim := mkFsim {
  f_close : list f64;
  f_max : option f64;
  f_factor : f64;
  f_portfolio : list fslot;
  f_data : list frow }.

Section FloatSim.
Variable npsum : list f64 -> f64.

Definition fis_open (s : fslot) : bool := match fs_status s with SOpen => true | _ => false end.
Definition fis_long (s : fslot) : bool := match fs_pos s with PLong => true | _ => false end.
Definition fis_short (s : fslot) : bool := match fs_pos s with PShort => true | _ => false end.
Definition fnat (n : nat) : f64 := fz (Z.of_nat n) 0.
Definition fsum_exposure (p : fslot -> bool) (l : list fslot) : f64 := npsum (map fs_exposure (filter p l)).

(** trading_simulation.py:338-359 *)
Definition fportfolio_value (price : f64) (pf : list fslot) : f64 :=
  let l := count (fun s => fis_long s && fis_open s) pf in
  let h := count (fun s => fis_short s && fis_open s) pf in
  fmul price (fz (Z.of_nat l - Z.of_nat h) 0).

(** trading_simulation.py:378-418 *)
Definition flong_to_close (price : f64) (s : fslot) : bool :=
  fis_open s && fis_long s && fltb (fs_exposure s) price.
Definition fshort_to_close (fac price : f64) (s : fslot) : bool :=
  fis_open s && fis_short s && fltb (fmul fac price) (fs_exposure s).
Definition fclose_slot (fac price : f64) (s : fslot) : fslot :=
  if flong_to_close price s || fshort_to_close fac price s
  then mkFslot (fs_pos s) SClosed (fs_exposure s) else s.

Definition frow_at (i : nat) (st : fsim) : frow := nth i (f_data st) frow0.
Definition fprice_at (i : nat) (st : fsim) : f64 := nth i (f_close st) fnan.

(** trading_simulation.py:361-458 *)
Definition fclose_open_positions (i : nat) (st : fsim) : fsim :=
  let price := fprice_at i st in
  let fac := f_factor st in
  let pf := f_portfolio st in
  let nl := fnat (count (flong_to_close price) pf) in
  let ns := fnat (count (fshort_to_close fac price) pf) in
  let le := fsum_exposure (flong_to_close price) pf in
  let se := fsum_exposure (fshort_to_close fac price) pf in
  let earnings := fadd (fsub (fmul nl price) le) (fsub (fdiv se fac) (fmul ns price)) in
  let closed := fadd le se in
  let prev := frow_at (i - 1) st in
  let r := frow_at i st in
  let r' := mkFrow (y_signal r) (y_action r) (y_stock r)
                   (fsub (y_exposure prev) closed)
                   (y_portfolio_value r)
                   (fadd (y_earnings prev) earnings)
                   (y_balance r) in
  mkFsim (f_close st) (f_max st) fac (map (fclose_slot fac price) pf) (set_nth i r' (f_data st)).

(** trading_simulation.py:473-591 *)
Definition fregister (i : nat) (sg : signal) (act : action) (sl : fslot) (exposure : f64) (st : fsim) : fsim :=
  let price := fprice_at i st in
  let pf := set_nth i sl (f_portfolio st) in
  let pv := fportfolio_value price pf in
  let earn := y_earnings (frow_at i st) in
  mkFsim (f_close st) (f_max st) (f_factor st) pf
         (set_nth i (mkFrow (Some sg) (Some act) price exposure pv earn (fadd pv earn)) (f_data st)).

Definition fover_limit (m : option f64) (x : f64) : bool :=
  match m with None => false | Some v => fltb v x end.

(** trading_simulation.py:460-591 *)
Definition fprocess_signal (i : nat) (sg : signal) (st : fsim) : fsim :=
  let e := y_exposure (frow_at i st) in
  let price := fprice_at i st in
  match sg with
  | Hold => fregister i Hold ANone fslot0 e st
  | Buy =>
      if fover_limit (f_max st) (fadd e price)
      then fregister i Buy ANone fslot0 e st
      else fregister i Buy ALong (mkFslot PLong SOpen price) (fadd e price) st
  | Sell =>
      let x := fmul (f_factor st) price in
      if fover_limit (f_max st) (fadd e x)
      then fregister i Sell ANone fslot0 e st
      else fregister i Sell AShort (mkFslot PShort SOpen x) (fadd e x) st
  end.

(** trading_simulation.py:593-627 *)
Definition frun_round (i : nat) (sg : signal) (st : fsim) : fsim :=
  match i with
  | O => mkFsim (f_close st) (f_max st) (f_factor st)
                (set_nth 0 fslot0 (f_portfolio st))
                (set_nth 0 (mkFrow (Some sg) (Some ANone) (fprice_at 0 st) f0 f0 f0 f0) (f_data st))
  | S _ => fprocess_signal i sg (fclose_open_positions i st)
  end.
Fixpoint frun_rounds (i : nat) (sgs : list signal) (st : fsim) : fsim :=
  match sgs with
  | [] => st
  | sg :: r => frun_rounds (S i) r (frun_round i sg st)
  end.
Definition fsim_start (c : list f64) (m : option f64) (f : f64) : fsim :=
  mkFsim c m f (repeat fslot0 (List.length c)) (repeat frow0 (List.length c)).
Definition fsimulate (c : list f64) (m : option f64) (f : f64) (sgs : list signal) : fsim :=
  frun_rounds 0 sgs (fsim_start c m f).
End FloatSim.
