(** * Script: the programs in signals_simulation.

    Models signals_simulation/run_all_simulation.py and run_single_simulation.py for any
    DataFrame in place of ./data/SCMN.SW.csv.  Not modelled: reading that file, the clock,
    the pictures and the exact layout of what is printed. *)
From Coq Require Import ZArith QArith Qcanon Bool String Ascii List PeanoNat.
From Verif Require Import Num Pandas Frame Sim Ind Signal Api Call.
Import ListNotations.
Open Scope list_scope. Open Scope string_scope.

(** what is written for a simulation that ran: title, file of the graph, statistics *)
Record report := mkReport { rp_title : string; rp_figure : string; rp_stats : stats }.

(** df[["close"]]: a copy of the columns with exactly this label *)
Definition is_close (l : label) : bool := match l with LStr s => String.eqb s "close" | LOther _ => false end.
Definition close_only (df : rawframe) : res rawval :=
  let keep := map is_close (r_labels df) in
  if existsb is_close (r_labels df)
  then Ok (RFrame (mkRaw (r_datetime df) (select keep (r_labels df)) (select keep (r_numeric df))
                         (map (fun r => (fst r, select keep (snd r))) (r_rows df))))
  else Err KeyErr.

(** ** run_all_simulation.py *)
(** :59-91 execute_simulation, with input_data among the keywords.  First component: the
    caller's DataFrame afterwards. *)
Definition title (k : klass) (info : option string) : string :=
  "Trading Simulation for technical indicator: " ++ name_of k
  ++ match info with Some s => " (" ++ s ++ ")" | None => "" end.
Definition figure (k : klass) (info : option string) : string :=
  "./figures/" ++ "simulation_" ++ name_of k ++ match info with Some s => "_" ++ s | None => "" end ++ ".png".
Definition execute (o : oracle) (k : klass) (df : rawframe) (info : option string) (kw : list (string * pyval))
  : rawval * res report :=
  match close_only df with
  | Err e => (RFrame df, Err e)
  | Ok cv =>
      match new o k [] (("input_data", AData (RFrame df)) :: map (fun p => (fst p, AVal (snd p))) kw) with
      | Err e => (RFrame df, Err e)
      | Ok (v, Err e) => (v, Err e)
      | Ok (v, Ok ob) =>
          (* getTiSimulation(close_values=close_values) *)
          (v, match snd (get_ti_simulation ob cv VNone (VFloat (D 15 10))) with
              | Err e => Err e
              | Ok (_, st) => Ok (mkReport (title k info) (figure k info) st)
              end)
      end
  end.

(** :94-191: the calls for one class *)
Definition calls (k : klass) : list (option string * list (string * pyval)) :=
  match k with
  | kMA => [(Some "simple", [("ma_type", VStr "simple")]);
            (Some "exponential", [("ma_type", VStr "exponential")]);
            (Some "time_series", [("ma_type", VStr "time_series")]);
            (Some "triangular", [("ma_type", VStr "triangular")]);
            (Some "variable", [("ma_type", VStr "variable")])]
  | kSO => [(Some "fast", [("k_slowing_periods", VInt 1)]); (Some "slow", [("k_slowing_periods", VInt 3)])]
  | _ => [(None, [])]
  end.
(** inspect.getmembers lists the classes by name *)
Definition all_calls : list (klass * (option string * list (string * pyval))) :=
  flat_map (fun k => map (pair k) (calls k)) classes.

(** the reports written, and the exception that ended the program, if any *)
Fixpoint run_calls (o : oracle) (l : list (klass * (option string * list (string * pyval)))) (df : rawval)
  : list report * option err :=
  match l with
  | [] => ([], None)
  | (k, (info, kw)) :: r =>
      match df with
      | RNotFrame => ([], Some TypeErr)                 (* pd.read_csv gives a DataFrame: does not happen *)
      | RFrame f =>
          match execute o k f info kw with
          | (_, Err e) => ([], Some e)
          | (df', Ok rp) => let (rps, e) := run_calls o r df' in (rp :: rps, e)
          end
      end
  end.
Definition run_all (o : oracle) (df : rawframe) : list report * option err := run_calls o all_calls (RFrame df).

(** ** run_single_simulation.py *)
Definition newline : ascii := ascii_of_nat 10.
(** in a regular expression $ also matches before a newline that ends the text *)
Fixpoint chomp (s : string) : string :=
  match s with
  | EmptyString => EmptyString
  | String c EmptyString => if Ascii.eqb c newline then EmptyString else s
  | String c r => String c (chomp r)
  end.
Definition is_digit (c : ascii) : bool := let n := nat_of_ascii c in (48 <=? n)%nat && (n <=? 57)%nat.
Definition is_letter (c : ascii) : bool :=
  let n := nat_of_ascii c in ((65 <=? n) && (n <=? 90) || (97 <=? n) && (n <=? 122))%nat.
Definition digit (c : ascii) : Z := Z.of_nat (nat_of_ascii c - 48).
Fixpoint all_chars (p : ascii -> bool) (s : string) : bool :=
  match s with EmptyString => true | String c r => p c && all_chars p r end.
(** int() of digits *)
Fixpoint digits_value (acc : Z) (s : string) : Z :=
  match s with EmptyString => acc | String c r => digits_value (10 * acc + digit c) r end.

(** text.split("=") *)
Fixpoint split_eq (s : string) : string * list string :=
  match s with
  | EmptyString => (EmptyString, [])
  | String c r => let (h, t) := split_eq r in
                  if Ascii.eqb c "=" then (EmptyString, h :: t) else (String c h, t)
  end.

(** the digits before a point and what follows the point *)
Fixpoint at_point (s : string) : option (string * string) :=
  match s with
  | EmptyString => None
  | String c r => if Ascii.eqb c "." then Some (EmptyString, r)
                  else match at_point r with Some (a, b) => Some (String c a, b) | None => None end
  end.
(** :83-90.  ^[0-9]*$ is tried first, then ^[0-9]*\.[0-9]]*$: digits, a point, one digit
    and any number of closing brackets.  int("") and float("1.5]") raise ValueError. *)
Definition typed_value (t : string) : res pyval :=
  let s := chomp t in
  if all_chars is_digit s
  then match s with EmptyString => Err ValueErr | _ => Ok (VInt (digits_value 0 s)) end
  else match at_point s with
       | Some (a, String d b) =>
           if all_chars is_digit a && is_digit d && all_chars (Ascii.eqb "]") b
           then match b with
                | EmptyString => Ok (VFloat (D (digits_value (digits_value 0 a) (String d EmptyString)) 10))
                | _ => Err ValueErr
                end
           else Ok (VStr t)
       | _ => Ok (VStr t)
       end.

(** kwargs[name] = value *)
Fixpoint dict_set {A} (n : string) (a : A) (l : list (string * A)) : list (string * A) :=
  match l with
  | [] => [(n, a)]
  | (m, b) :: r => if String.eqb n m then (n, a) :: r else (m, b) :: dict_set n a r
  end.
(** :80-90 *)
Fixpoint typed_args (args : list string) (kw : list (string * pyval)) : res (list (string * pyval)) :=
  match args with
  | [] => Ok kw
  | s :: r =>
      match split_eq s with
      | (_, []) => Err IndexErr
      | (n, t :: _) => do v <- typed_value t; typed_args r (dict_set n v kw)
      end
  end.

(** :69-78: ^tti\.indicators\.[A-Z,a-z]*$ and eval of the text.  The names of letters in the
    package are the classes.  A text with a comma after the package name evaluates to a tuple or
    not at all; no simulation starts either way, and the model does not tell the two apart. *)
Definition package : string := "tti.indicators.".
Fixpoint strip_prefix (p s : string) : option string :=
  match p, s with
  | EmptyString, _ => Some s
  | String a p', String b s' => if Ascii.eqb a b then strip_prefix p' s' else None
  | _, _ => None
  end.
Definition class_called (n : string) : option klass := find (fun k => String.eqb (name_of k) n) classes.
Definition named_class (s : string) : option klass :=
  match strip_prefix package (chomp s) with Some n => class_called n | None => None end.

Inductive outcome := OInvalid | ORaised (e : err) | ODone (rp : report).
(** the arguments of execute_simulation that are given by name *)
Definition taken : list string := ["indicator_object"; "close_values"; "input_data"].
(** print puts a blank between its arguments *)
Definition single_title (k : klass) : string := "Trading Simulation for technical indicator:  " ++ name_of k.
(** [argv]: sys.argv[1:] *)
Definition run_single (o : oracle) (argv : list string) (df : rawframe) : outcome :=
  match argv with
  | [] => OInvalid
  | s :: args =>
      match named_class s with
      | None => OInvalid
      | Some k =>
          match typed_args args [] with
          | Err e => ORaised e
          | Ok kw =>
              match close_only df with
              | Err e => ORaised e
              | Ok _ =>
                  if existsb (fun n => mem n taken) (map fst kw) then ORaised TypeErr
                  else match snd (execute o k df None kw) with
                       | Err e => ORaised e
                       | Ok rp => ODone (mkReport (single_title k) "foo.png" (rp_stats rp))
                       end
              end
          end
      end
  end.
