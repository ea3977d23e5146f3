(** * PropsDates: what the dates and the currency matter for. *)
From Coq Require Import ZArith QArith Qcanon Bool List String PeanoNat Lia.
From Verif Require Import Num NumFacts Pandas Frame FrameSpec Sim Ind Signal Api ApiSpec PropsApi PropsFormula DateSpec DateApi CurrencySpec CurrencyFacts.
Import ListNotations.
Open Scope list_scope. Open Scope string_scope.

(** ** C87 Only the order of the dates matters *)
Theorem C87_same_values to raw o c b ob : wf_raw raw -> keeps_order to (dates raw) -> snd (construct o c (RFrame raw) (VBool b)) = Ok ob ->
  exists ob', snd (construct o c (RFrame (redated to raw)) (VBool b)) = Ok ob' /\
    cols (get_ti_data ob') = cols (get_ti_data ob) /\ index (get_ti_data ob') = map to (index (get_ti_data ob)) /\ map snd (rows (get_ti_data ob')) = map snd (rows (get_ti_data ob)) /\
    get_ti_signal ob' = get_ti_signal ob /\ get_ti_value ob' DNotGiven = get_ti_value ob DNotGiven /\
    forall t, In t (dates raw) -> get_ti_value ob' (DAt (to t)) = get_ti_value ob (DAt t).
Proof. exact (same_values to raw o c b ob). Qed.
Print Assumptions C87_same_values.
Theorem C87_same_refusals to raw o c fill e : keeps_order to (dates raw) ->
  (snd (construct o c (RFrame (redated to raw)) fill) = Err e <-> snd (construct o c (RFrame raw) fill) = Err e).
Proof. exact (same_refusals to raw o c fill e). Qed.
Print Assumptions C87_same_refusals.
(** with the dates of the close values renumbered in the same way *)
Theorem C87_same_simulation to raw cv o c b ob ob' m x : wf_raw raw -> keeps_order to (dates raw ++ dates cv) ->
  snd (construct o c (RFrame raw) (VBool b)) = Ok ob -> snd (construct o c (RFrame (redated to raw)) (VBool b)) = Ok ob' ->
  snd (get_ti_simulation ob' (RFrame (redated to cv)) m x) = snd (get_ti_simulation ob (RFrame cv) m x).
Proof. exact (same_simulation to raw cv o c b ob ob' m x). Qed.
Print Assumptions C87_same_simulation.

(** days 1, 2, ... become the dates 100, 107, 114 and so on; the rows come in reverse order *)
Definition weekly (t : Z) : Z := (93 + 7 * t)%Z.
Definition backwards (raw : rawframe) : rawframe := mkRaw (r_datetime raw) (r_labels raw) (r_numeric raw) (rev (r_rows raw)).
Example C87_case : let raw := backwards (market 6) in let cv := closes 6 in let c := cMA (VInt 2) (VStr "simple") in
  let ob := the (made ora0 c raw true) in let ob' := the (made ora0 c (redated weekly raw) true) in
  wf_raw raw /\ keeps_order weekly (dates raw ++ dates cv) /\ made ora0 c raw true <> None /\ made ora0 c (redated weekly raw) true <> None /\
  index (get_ti_data ob') = [100; 107; 114; 121; 128; 135]%Z /\
  (exists r, get_ti_value ob' (DAt 121) = TVRow r /\ get_ti_value ob (DAt 4) = TVRow r /\ map isfin r = [true]) /\ get_ti_signal ob' = Ok Buy /\
  signals_of (snd (get_ti_simulation ob' (RFrame (redated weekly cv)) VNone (VFloat (F 2)))) = [Some Hold; Some Hold; Some Buy; Some Hold; Some Hold; Some Buy].
Proof.
  cbv zeta. split; [split; [reflexivity|]; intros r H; cbn in H; repeat (destruct H as [<-|H]; [reflexivity|]); contradiction|].
  split; [intros x y _ _ L; unfold weekly; lia|]. split; [vm_compute; discriminate|]. split; [vm_compute; discriminate|]. split; [vm_compute; reflexivity|].
  split; [eexists; split; [vm_compute; reflexivity|]; split; vm_compute; reflexivity|]. split; vm_compute; reflexivity.
Qed.

(** ** C88 The simulation does not depend on the currency *)
Theorem C88_same_trades a ob cv m m' x : (0 < a)%Qc -> limit_in a m m' ->
  match snd (get_ti_simulation ob (RFrame cv) m x), snd (get_ti_simulation ob (RFrame (repriced a cv)) m' x) with
  | Ok (st, s), Ok (st', s') => Forall2 (in_currency a) (data st) (data st') /\ same_counts s s'
  | Err e, Err e' => e' = e
  | _, _ => False
  end.
Proof. exact (fun A => simulation_sc a A ob cv m m' x). Qed.
Print Assumptions C88_same_trades.
Definition result (r : res (sim * stats)) : sim * stats := match r with Ok p => p | Err _ => (sim_start [] None (F 0), statistics (sim_start [] None (F 0))) end.
(** the statistics are rounded to cents in every currency *)
Theorem C88_statistics_refuted : exists a ob cv st s st' s', (0 < a)%Qc /\ snd (get_ti_simulation ob (RFrame cv) VNone (VFloat (F 2))) = Ok (st, s) /\
  snd (get_ti_simulation ob (RFrame (repriced a cv)) VNone (VFloat (F 2))) = Ok (st', s') /\ neqb (last_stock_value s') (nmul (Fin a) (last_stock_value s)) = false.
Proof.
  exists (Q2Qc (inject_Z 100)), (the (made ora0 (cMA (VInt 2) (VStr "simple")) (market 6) true)), (closing (map (fun k => (Z.of_nat k, D 10123 1000)) (seq 1 6))).
  eexists. eexists. eexists. eexists. split; [apply qltb_iff; vm_compute; reflexivity|]. split; [vm_compute; reflexivity|]. split; vm_compute; reflexivity.
Qed.
Print Assumptions C88_statistics_refuted.
Example C88_case : let ob := the (made ora0 (cMA (VInt 2) (VStr "simple")) (market 6) true) in let a := Q2Qc (inject_Z 100) in
  let r := result (snd (get_ti_simulation ob (RFrame (closes 6)) (VInt 200) (VFloat (F 2)))) in let r' := result (snd (get_ti_simulation ob (RFrame (repriced a (closes 6))) (VFloat (F 20000)) (VFloat (F 2)))) in
  (0 < a)%Qc /\ limit_in a (VInt 200) (VFloat (F 20000)) /\ map x_action (data (fst r)) = map x_action (data (fst r')) /\ List.length (data (fst r)) = 6%nat /\
  forallb (fun p => neqb (x_balance (snd p)) (nmul (Fin a) (x_balance (fst p)))) (combine (data (fst r)) (data (fst r'))) = true /\ existsb (fun d => negb (neqb (x_balance d) (F 0))) (data (fst r)) = true /\
  existsb (fun d => match x_signal d, x_action d with Some Buy, Some ALong => true | _, _ => false end) (data (fst r)) = true.
Proof.
  cbv zeta. split; [apply qltb_iff; vm_compute; reflexivity|]. split; [right; exists (F 200); split; [reflexivity|]; cbn; f_equal; f_equal; apply Qc_is_canon; reflexivity|].
  repeat split; vm_compute; reflexivity.
Qed.
