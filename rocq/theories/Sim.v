(** * Sim: tti/utils/trading_simulation.py, class TradingSimulation.

    The numpy array [_portfolio] (position, status, exposure) and the DataFrame
    [_simulation_data] are lists of records; the integer codes of the columns are
    inductive types.  Not yet filled cells of [_simulation_data] are [None]/NaN. *)
From Coq Require Import ZArith QArith Qcanon Bool List String PeanoNat.
From Verif Require Import Num Pandas Frame.
Import ListNotations.
Open Scope list_scope.

(** tti/utils/constants.py: TRADE_SIGNALS *)
Inductive signal := Buy | Hold | Sell.
Definition signal_code (s : signal) : string * Z :=
  match s with Buy => ("buy"%string, (-1)%Z) | Hold => ("hold"%string, 0%Z) | Sell => ("sell"%string, 1%Z) end.

Inductive action := ALong | AShort | ANone.

(** trading_simulation.py:173-177 *)
Inductive position := PNone | PShort | PLong.
Inductive status := SNone | SOpen | SClosed.
Record slot := mkSlot { s_pos : position; s_status : status; s_exposure : num }.
Definition slot0 : slot := mkSlot PNone SNone (F 0).

(** columns of _simulation_data (trading_simulation.py:183-195) *)
Record simrow := mkRow {
  x_signal : option signal;
  x_action : option action;
  x_stock : num;
  x_exposure : num;
  x_portfolio_value : num;
  x_earnings : num;
  x_balance : num }.
Definition simrow0 : simrow := mkRow None None NaN NaN NaN NaN NaN.

Record sim := mkSim {
  close : list num;             (* _close_values[:, 0] *)
  max_exposure : option num;
  factor : num;                 (* _short_exposure_factor *)
  portfolio : list slot;
  data : list simrow }.

(** python values given for the simulation arguments *)
Inductive pyval :=
| VInt (z : Z) | VBool (b : bool) | VFloat (x : num) | VStr (s : string) | VNone | VOther.
(** isinstance(v, (int, float)) and its numeric value; bool is an int *)
Definition number_of (v : pyval) : option num :=
  match v with
  | VInt z => Some (F z)
  | VBool b => Some (num_of_bool b)
  | VFloat x => Some x
  | _ => None
  end.

(** trading_simulation.py:261-281 *)
Definition check_max_exposure (v : pyval) : res (option num) :=
  match number_of v with
  | Some x => if nleb x (F 0) then Err (WrongValue "max_exposure") else Ok (Some x)
  | None => match v with VNone => Ok None | _ => Err (WrongType "max_exposure") end
  end.
Definition check_factor (v : pyval) : res num :=
  match number_of v with
  | Some x => if nltb x (F 1) then Err (WrongValue "short_exposure_factor") else Ok x
  | None => Err (WrongType "short_exposure_factor")
  end.

Fixpoint zlist_eqb (a b : list Z) : bool :=
  match a, b with
  | [], [] => true
  | x :: r, y :: s => Z.eqb x y && zlist_eqb r s
  | _, _ => false
  end.

Definition sort_z (l : list Z) : list Z := map fst (sort_rows (map (fun z => (z, [])) l)).

(** __init__ and _validateSimulationArguments (trading_simulation.py:157-281).
    First component: the caller's close_values object afterwards. *)
Definition sim_init (idx : list Z) (close_values : rawval) (max_exp fac : pyval) : rawval * res sim :=
  let (v', r) := validate close_values ["close"%string] true in
  (v',
   match r with
   | Err _ => Err (NotValidSim "close_values")
   | Ok f =>
       if negb (zlist_eqb (index f) (sort_z idx)) then Err (NotValidSim "close_values")
       else
         do m <- check_max_exposure max_exp;
         do x <- check_factor fac;
         (* arrays have one row per date of the index (:177, :183) *)
         Ok (mkSim (icol 0 f) m x
                   (repeat slot0 (List.length idx)) (repeat simrow0 (List.length idx)))
   end).

(** list update *)
Fixpoint set_nth {A} (i : nat) (v : A) (l : list A) : list A :=
  match i, l with
  | _, [] => []
  | O, _ :: r => v :: r
  | S k, x :: r => x :: set_nth k v r
  end.

Definition is_open (s : slot) : bool := match s_status s with SOpen => true | _ => false end.
Definition is_long (s : slot) : bool := match s_pos s with PLong => true | _ => false end.
Definition is_short (s : slot) : bool := match s_pos s with PShort => true | _ => false end.

Definition count {A} (p : A -> bool) (l : list A) : nat := List.length (filter p l).

(** numpy integer scalar times float, np.sum *)
Definition nnat (n : nat) : num := Fin (qnat n).
Definition sum_exposure (p : slot -> bool) (l : list slot) : num := nsum (map s_exposure (filter p l)).

(** _calculatePortfolioValue (trading_simulation.py:338-359) *)
Definition portfolio_value (price : num) (pf : list slot) : num :=
  let l := count (fun s => is_long s && is_open s) pf in
  let h := count (fun s => is_short s && is_open s) pf in
  nmul price (Fin (Q2Qc (inject_Z (Z.of_nat l - Z.of_nat h)))).

(** masks used by _closeOpenPositions (trading_simulation.py:378-418) *)
Definition long_to_close (price : num) (s : slot) : bool :=
  is_open s && is_long s && nltb (s_exposure s) price.
Definition short_to_close (fac price : num) (s : slot) : bool :=
  is_open s && is_short s && ngtb (s_exposure s) (nmul fac price).
Definition close_slot (fac price : num) (s : slot) : slot :=
  if long_to_close price s || short_to_close fac price s
  then mkSlot (s_pos s) SClosed (s_exposure s) else s.

Definition row_at (i : nat) (st : sim) : simrow := nth i (data st) simrow0.
Definition price_at (i : nat) (st : sim) : num := nth i (close st) NaN.

(** _closeOpenPositions (trading_simulation.py:361-458) *)
Definition close_open_positions (i : nat) (st : sim) : sim :=
  let price := price_at i st in
  let fac := factor st in
  let pf := portfolio st in
  let nl := nnat (count (long_to_close price) pf) in
  let ns := nnat (count (short_to_close fac price) pf) in
  let le := sum_exposure (long_to_close price) pf in
  let se := sum_exposure (short_to_close fac price) pf in
  let earnings := nadd (nsub (nmul nl price) le) (nsub (ndiv se fac) (nmul ns price)) in  (* :422-425 *)
  let closed := nadd le se in
  let prev := row_at (i - 1) st in
  let r := row_at i st in
  let r' := mkRow (x_signal r) (x_action r) (x_stock r)
                  (nsub (x_exposure prev) closed)                                         (* :452 *)
                  (x_portfolio_value r)
                  (nadd (x_earnings prev) earnings)                                       (* :456 *)
                  (x_balance r) in
  mkSim (close st) (max_exposure st) fac (map (close_slot fac price) pf) (set_nth i r' (data st)).

(** write portfolio row i, then simulation row i (trading_simulation.py:473-591) *)
Definition register (i : nat) (sg : signal) (act : action) (sl : slot) (exposure : num) (st : sim) : sim :=
  let price := price_at i st in
  let pf := set_nth i sl (portfolio st) in
  let pv := portfolio_value price pf in
  let earn := x_earnings (row_at i st) in
  mkSim (close st) (max_exposure st) (factor st) pf
        (set_nth i (mkRow (Some sg) (Some act) price exposure pv earn (nadd pv earn)) (data st)).

Definition over_limit (m : option num) (x : num) : bool :=
  match m with None => false | Some v => nltb v x end.

(** _processSignal (trading_simulation.py:460-591) *)
Definition process_signal (i : nat) (sg : signal) (st : sim) : sim :=
  let e := x_exposure (row_at i st) in
  let price := price_at i st in
  match sg with
  | Hold => register i Hold ANone slot0 e st
  | Buy =>
      if over_limit (max_exposure st) (nadd e price)
      then register i Buy ANone slot0 e st
      else register i Buy ALong (mkSlot PLong SOpen price) (nadd e price) st
  | Sell =>
      let x := nmul (factor st) price in
      if over_limit (max_exposure st) (nadd e x)
      then register i Sell ANone slot0 e st
      else register i Sell AShort (mkSlot PShort SOpen x) (nadd e x) st
  end.

(** runSimulationRound (trading_simulation.py:593-627) *)
Definition run_round (i : nat) (sg : signal) (st : sim) : sim :=
  match i with
  | O => mkSim (close st) (max_exposure st) (factor st)
               (set_nth 0 slot0 (portfolio st))
               (set_nth 0 (mkRow (Some sg) (Some ANone) (price_at 0 st) (F 0) (F 0) (F 0) (F 0)) (data st))
  | S _ => process_signal i sg (close_open_positions i st)
  end.

(** rounds i, i+1, ... for a list of signals *)
Fixpoint run_rounds (i : nat) (sgs : list signal) (st : sim) : sim :=
  match sgs with
  | [] => st
  | sg :: r => run_rounds (S i) r (run_round i sg st)
  end.

(** the state after __init__ (trading_simulation.py:168-211) *)
Definition sim_start (c : list num) (m : option num) (f : num) : sim :=
  mkSim c m f (repeat slot0 (List.length c)) (repeat simrow0 (List.length c)).

(** __init__ followed by runSimulationRound(0, sg0), runSimulationRound(1, sg1), ...
    (called by tti/indicators/_technical_indicator.py:413-419) *)
Definition simulate (c : list num) (m : option num) (f : num) (sgs : list signal) : sim :=
  run_rounds 0 sgs (sim_start c m f).

Definition sig_eqb (a b : signal) : bool :=
  match a, b with Buy, Buy | Hold, Hold | Sell, Sell => true | _, _ => false end.
Definition has_signal (s : signal) (r : simrow) : bool :=
  match x_signal r with Some x => sig_eqb s x | None => false end.
Definition no_action (r : simrow) : bool :=
  match x_action r with Some ANone => true | _ => false end.

Record stats := mkStats {
  number_of_trading_days : nat;
  number_of_buy_signals : nat;
  number_of_ignored_buy_signals : nat;
  number_of_sell_signals : nat;
  number_of_ignored_sell_signals : nat;
  last_stock_value : num;
  last_exposure : num;
  last_open_long_positions : nat;
  last_open_short_positions : nat;
  last_portfolio_value : num;
  last_earnings : num;
  final_balance : num }.

(** _calculateSimulationStatistics (trading_simulation.py:283-336) *)
Definition statistics (st : sim) : stats :=
  let d := data st in
  let n := count (fun r => match x_signal r with Some _ => true | None => false end) d in
  let last (f : simrow -> num) : num :=
    match n with O => F 0 | S k => nround 2 (f (nth k d simrow0)) end in
  mkStats n
    (count (has_signal Buy) d)
    (count (fun r => has_signal Buy r && no_action r) d)
    (count (has_signal Sell) d)
    (count (fun r => has_signal Sell r && no_action r) d)
    (last x_stock) (last x_exposure)
    (count (fun s => is_long s && is_open s) (portfolio st))
    (count (fun s => is_short s && is_open s) (portfolio st))
    (last x_portfolio_value) (last x_earnings) (last x_balance).
