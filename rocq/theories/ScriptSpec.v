(** * ScriptSpec: the words for statements about the simulation programs. *)
From Coq Require Import ZArith QArith Qcanon Bool String Ascii List PeanoNat.
From Verif Require Import Num Pandas Frame FrameSpec Sim Ind Signal Api ApiSpec DocSpec Call CallSpec Script Message.
Import ListNotations.
Open Scope list_scope. Open Scope string_scope.

(** ** values typed on the command line *)
Definition no_equals (s : string) : Prop := forall a b, s <> a ++ "=" ++ b.
(** how a value is written so that the program understands it *)
Inductive written : string -> pyval -> Prop :=
| W_integer z : (0 <= z)%Z -> written (show_z z) (VInt z)
| W_tenths z d : (0 <= z)%Z -> (0 <= d <= 9)%Z ->
    written (show_z z ++ "." ++ show_z d) (VFloat (D (10 * z + d) 10))
| W_word c s : is_letter c = true -> no_equals s -> written (String c s) (VStr (String c s)).
(** name=text *)
Definition typed (n t : string) : string := n ++ "=" ++ t.

(** the texts that give these arguments *)
Definition gives (texts : list string) (kw : list (string * pyval)) : Prop :=
  Forall2 (fun s p => exists t, s = typed (fst p) t /\ no_equals (fst p) /\ written t (snd p)) texts kw.

(** ** all simulations *)
(** daily data under the five names the indicators ask for, one of them spelt "close" *)
Record market_data (df : rawframe) : Prop := mkMarket {
  md_wf : wf_raw df;
  md_dates : r_datetime df = true;
  md_names : all_str df;
  md_once : NoDup (str_labels df);
  md_close : In (LStr "close") (r_labels df);
  md_columns : forall n, In n ["open"; "high"; "low"; "close"; "volume"] -> numeric_column df n }.
(** the closing prices alone *)
Definition closing_prices (df : rawframe) : rawval :=
  RFrame (mkRaw true [LStr "close"] [true] (map (fun p => (fst p, [snd p])) (raw_cells "close" df))).
(** the report on a simulation of the class with the given and otherwise documented settings *)
Definition reports (o : oracle) (df : rawframe) (call : klass * (option string * list (string * pyval))) (rp : report) : Prop :=
  let '(k, (info, kw)) := call in
  exists v ob st,
    new o k [] (("input_data", AData (RFrame df)) :: map (fun p => (fst p, AVal (snd p))) kw) = Ok (v, Ok ob) /\
    snd (get_ti_simulation ob (closing_prices df) VNone (VFloat (D 15 10))) = Ok (st, rp_stats rp) /\
    rp_title rp = title k info /\ rp_figure rp = figure k info.
Definition before_ri : list (klass * (option string * list (string * pyval))) := firstn 41 all_calls.
