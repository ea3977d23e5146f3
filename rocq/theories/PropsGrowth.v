(** * PropsGrowth: a market that grows by the same factor every day (C108, C109).

    [grows f k g]: up to row k every value f is g times the one before.  [all_grown names ob k g w]: the named columns of the
    market are known up to row k and grow so, prices by g and the volume by w.  [settled c]: columns of the indicator with their
    first row and the columns of the market they use.  [from a k v]: v, missing before row a ([GrowthSpec.v], [FormulaSpec.v]). *)
From Coq Require Import ZArith QArith Qcanon Bool List String PeanoNat Lia.
From Verif Require Import Num NumFacts Pandas Sim Frame FrameSpec Ind Signal Api IndSpec ApiSpec RangeSpec PropsApi PropsRange ValueSpec ValueApi PropsValue PropsCumul FormulaSpec FormulaApi PropsFormula SignalSpec SignalApi PropsSignal MirrorSpec PropsMirror OrderSpec OrderFacts OrderApi PropsOrder SteadySpec SteadyFacts SteadyApi SteadySig PropsSteady GrowthSpec GrowthFacts GrowthApi.
Import ListNotations.
Open Scope list_scope. Open Scope string_scope. Open Scope Qc_scope.
Notation built ct o raw b ob := (snd (construct o ct (RFrame raw) (VBool b)) = Ok ob).

(** ** C108 On a market of steady growth the relative indicators show the same value every day *)
Theorem C108_same_every_day o raw b ob k g w ct name a cols : wf_raw raw -> 0 < g -> 0 < w -> built ct o raw b ob -> In (name, a, cols) (settled ct) -> all_grown cols ob k g w ->
  shown name ob k = from a k (shown name ob a).
Proof. exact (fun W G GW => settled_shown o raw b ob k g w W G GW ct name a cols). Qed.
Print Assumptions C108_same_every_day.
Theorem C108_ultimate_oscillator o raw b ob k g h l c : wf_raw raw -> 0 < g -> built cUO o raw b ob -> known (given "high" ob) k h -> known (given "low" ob) k l -> known (given "close" ob) k c ->
  grows h k g -> grows l k g -> grows c k g -> (forall j, (j <= k)%nat -> l j < h j) -> shown "uosc" ob k = from 28 k (shown "uosc" ob 28).
Proof. exact (fun W G M => growth_uo o raw b ob k g W G M h l c). Qed.
Print Assumptions C108_ultimate_oscillator.
Theorem C108_money_flow o raw b ob k g w p h l c v : wf_raw raw -> 0 < g -> 0 < w -> built (cCMF p) o raw b ob ->
  known (given "high" ob) k h -> known (given "low" ob) k l -> known (given "close" ob) k c -> known (given "volume" ob) k v -> grows h k g -> grows l k g -> grows c k g -> grows v k w ->
  (forall j, (j <= k)%nat -> l j <= c j /\ c j <= h j /\ l j < h j) -> shown "cmf" ob k = from (nat_arg p - 1) k (shown "cmf" ob (nat_arg p - 1)).
Proof. exact (fun W G GW M => growth_cmf o raw b ob k g w W G GW p M h l c v). Qed.
Print Assumptions C108_money_flow.
(** and the value is the textbook's *)
Theorem C108_momentum o raw b ob k g p c : wf_raw raw -> 0 < g -> built (cMOM p) o raw b ob -> known (given "close" ob) k c -> grows c k g -> c O <> 0 ->
  shown "mom" ob k = from (nat_arg p) k (Fin (r4 (zq 100 * g ^ nat_arg p))).
Proof. exact (fun W G M => growth_mom o raw b ob k g W G p M c). Qed.
Print Assumptions C108_momentum.
Theorem C108_price_rate_of_change o raw b ob k g p c : wf_raw raw -> 0 < g -> built (cPRC p) o raw b ob -> known (given "close" ob) k c -> grows c k g -> c O <> 0 ->
  shown "prc" ob k = from (nat_arg p) k (Fin (r4 (zq 100 * (g ^ nat_arg p - 1)))).
Proof. exact (fun W G M => growth_prc o raw b ob k g W G p M c). Qed.
Print Assumptions C108_price_rate_of_change.
Theorem C108_volume_rate_of_change o raw b ob k w p v : wf_raw raw -> 0 < w -> built (cVRC p) o raw b ob -> known (given "volume" ob) k v -> grows v k w -> v O <> 0 ->
  shown "vrc" ob k = from (nat_arg p) k (Fin (r4 (zq 100 * (w ^ nat_arg p - 1)))).
Proof. exact (fun W G M => growth_vrc o raw b ob k w W G p M v). Qed.
Print Assumptions C108_volume_rate_of_change.
Theorem C108_performance o raw b ob k g p q c : wf_raw raw -> built (cPRF p q) o raw b ob -> known (given "close" ob) k c -> grows c k g -> c O <> 0 ->
  shown "prf" ob k = Fin (r4 (g ^ k - 1)).
Proof. exact (fun W M => growth_prf o raw b ob k g W p q M c). Qed.
Print Assumptions C108_performance.
(** the vertical horizontal filter, on rises and on falls *)
Theorem C108_vertical_horizontal_filter o raw b ob k g p c : wf_raw raw -> 0 < g -> built (cVHF p) o raw b ob -> known (given "close" ob) k c -> grows c k g -> 0 < c O -> g <> 1 ->
  shown "vhf" ob k = from (nat_arg p) k (Fin (r4 ((g ^ nat_arg p - g) / (g ^ nat_arg p - 1)))).
Proof. exact (fun W G M => growth_vhf o raw b ob k g W G p M c). Qed.
Print Assumptions C108_vertical_horizontal_filter.

(** n days, prices 8, 12, 4, 6 times g^j and volumes 5 times w^j, forwards or backwards in time *)
Definition growing (n : nat) (g w : Z) : list (Z * Z * Z * Z * Z) :=
  map (fun j => let x := (g ^ Z.of_nat j)%Z in (8 * x, 12 * x, 4 * x, 6 * x, 5 * w ^ Z.of_nat j)%Z) (seq 0 n).
Definition col_of (name : string) (rs : list (Z * Z * Z * Z * Z)) : nat -> Qc :=
  if String.eqb name "open" then op_of rs else if String.eqb name "high" then hi_of rs else if String.eqb name "low" then lo_of rs else if String.eqb name "close" then cl_of rs else vo_of rs.
Definition growsb (f : nat -> Qc) (k : nat) (g : Qc) : bool := forallb (fun j => qeqb (f j) (f O * g ^ j)) (seq 0 (S k)).
Lemma growsb_ok f k g : growsb f k g = true -> grows f k g.
Proof. unfold growsb. rewrite forallb_forall. intros H j J. apply qeqb_iff, H, in_seq. lia. Qed.
Definition grownb (names : list string) (ob : obj) (rs : list (Z * Z * Z * Z * Z)) (k : nat) (g w : Qc) : bool :=
  forallb (fun nm => reads_as (given nm ob) (S k) (col_of nm rs) && growsb (col_of nm rs) k (if String.eqb nm "volume" then w else g)) names.
Lemma grownb_ok names ob rs k g w : grownb names ob rs k g w = true -> all_grown names ob k g w.
Proof.
  unfold grownb. rewrite forallb_forall. intros H nm I. specialize (H nm I). apply andb_prop in H as [A B]. exists (col_of nm rs). split; [apply reads_as_known, A|apply growsb_ok, B].
Qed.
Definition players : list ctor := [cMOM (VInt 3); cPRC (VInt 3); cVRC (VInt 3); cPOSC (VInt 4) (VInt 2); cVHF (VInt 3); cCMO (VInt 3); cIMI (VInt 3); cWR (VInt 3); cSO (VInt 3) (VInt 3) (VInt 2) (VStr "simple"); cCCI (VInt 4)].
Definition meets (rs : list (Z * Z * Z * Z * Z)) (k : nat) (g w : Qc) (c : ctor) : bool :=
  is_made c rs && match settled c with [(_, _, cols)] => grownb cols (obj_of c rs) rs k g w | _ => false end.
Example C108_case : let up := growing 12 3 2 in let down := rev (growing 12 2 3) in
  forallb (meets up 11 (zq 3) (zq 2)) players = true /\ forallb (meets down 11 (Q2Qc (1 # 2)) (Q2Qc (1 # 3))) players = true /\
  (holds_at (cMOM (VInt 3)) up "mom" 9 2700 && holds_at (cPRC (VInt 3)) up "prc" 5 2600 && holds_at (cPRC (VInt 3)) down "prc" 5 (-875 # 10) && holds_at (cVRC (VInt 3)) up "vrc" 7 700 && holds_at (cPOSC (VInt 4) (VInt 2)) up "posc" 7 80 &&
   holds_at (cVHF (VInt 3)) up "vhf" 9 (9231 # 10000) && holds_at (cVHF (VInt 3)) down "vhf" 9 (4286 # 10000) && holds_at (cWR (VInt 3)) up "wr" 2 (-519231 # 10000) && holds_at (cWR (VInt 3)) up "wr" 11 (-519231 # 10000) &&
   holds_at (cCCI (VInt 4)) up "cci" 3 (1333333 # 10000) && holds_at (cCCI (VInt 4)) up "cci" 11 (1333333 # 10000) && holds_at (cPRF (VStr "LONG") (VInt 2)) up "prf" 4 80) = true.
Proof. vm_compute. auto. Qed.
Example C108_hypotheses : let up := growing 32 2 3 in let ob := obj_of (cCMF (VInt 3)) up in
  built (cCMF (VInt 3)) ora0 (bars up) true ob /\ grownb ["high"; "low"; "close"; "volume"] ob up 31 (zq 2) (zq 3) = true /\ (forall j, (j <= 31)%nat -> lo_of up j <= cl_of up j /\ cl_of up j <= hi_of up j /\ lo_of up j < hi_of up j) /\
  grownb ["high"; "low"; "close"] (obj_of cUO up) up 31 (zq 2) (zq 3) = true /\ holds_at cUO up "uosc" 28 (333333 # 10000) && holds_at cUO up "uosc" 31 (333333 # 10000) = true.
Proof.
  cbv zeta. split; [apply is_made_ok; vm_compute; reflexivity|]. split; [vm_compute; reflexivity|]. split; [|split; vm_compute; reflexivity].
  assert (H : forallb (fun j => qleb (lo_of (growing 32 2 3) j) (cl_of (growing 32 2 3) j) && qleb (cl_of (growing 32 2 3) j) (hi_of (growing 32 2 3) j) && qltb (lo_of (growing 32 2 3) j) (hi_of (growing 32 2 3) j)) (seq 0 32) = true) by (vm_compute; reflexivity).
  rewrite forallb_forall in H. intros j J. specialize (H j ltac:(apply in_seq; lia)). apply andb_prop in H as [H C]. apply andb_prop in H as [A B]. apply qleb_iff in A, B. apply qltb_iff in C. auto.
Qed.

(** ** C109 On a market of steady growth eight of them never signal *)
Theorem C109_holds o raw b st g w ct : 0 < g -> 0 < w -> working o ct raw b st -> never_signals ct = true ->
  (forall name a cols, In (name, a, cols) (settled ct) -> all_grown cols st (days_given st - 1) g w) -> (forall j, (j < days_given st)%nat -> given "close" st j <> Fin 0) -> get_ti_signal st = Ok Hold.
Proof. exact (fun G GW => growth_holds o raw b st g w G GW ct). Qed.
Print Assumptions C109_holds.
Example C109_case : let up := growing 12 3 2 in let st := obj_of (cMOM (VInt 3)) up in
  working ora0 (cMOM (VInt 3)) (bars up) true st /\ (forall name a cols, In (name, a, cols) (settled (cMOM (VInt 3))) -> all_grown cols st (days_given st - 1) (zq 3) (zq 2)) /\ (forall j, (j < days_given st)%nat -> given "close" st j <> Fin 0) /\
  forallb (fun c => negb (never_signals c) || shows c up [(3, Hold); (4, Hold); (11, Hold)]%nat) players = true /\ shows (cCCI (VInt 4)) up [(3, Sell); (11, Sell)]%nat = true.
Proof.
  cbv zeta. split; [split; [apply bars_wf|]; eexists; split; [apply is_made_ok; vm_compute; reflexivity|left; reflexivity]|]. split; [|split; [|vm_compute; auto]].
  - intros name a cols [E|[]]. injection E as <- <- <-. apply grownb_ok with (rs := growing 12 3 2). vm_compute. reflexivity.
  - assert (H : forallb (fun j => negb (neqb (given "close" (obj_of (cMOM (VInt 3)) (growing 12 3 2)) j) (Fin 0))) (seq 0 (days_given (obj_of (cMOM (VInt 3)) (growing 12 3 2)))) = true) by (vm_compute; reflexivity).
    rewrite forallb_forall in H. intros j J E. specialize (H j ltac:(apply in_seq; lia)). rewrite E in H. discriminate.
Qed.
