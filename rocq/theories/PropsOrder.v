(** * PropsOrder: higher prices, and a higher close of the day.

    [price_lines c] lists the published columns that are averages or extremes of prices, [follows_close c] those that
    measure where the close of the day stands ([OrderSpec]); [present_le a b]: a <= b when both are numbers. *)
From Coq Require Import ZArith QArith Qcanon Bool List String PeanoNat Lia.
From Verif Require Import Num NumFacts Pandas Sim Frame FrameSpec Ind Signal Api IndSpec ApiSpec RangeSpec PropsApi PropsRange ValueSpec ValueApi PropsValue PropsCumul FormulaSpec FormulaApi PropsFormula SignalSpec SignalApi MirrorSpec PropsMirror OrderSpec OrderFacts OrderApi OrderApi2.
Import ListNotations.
Open Scope list_scope. Open Scope string_scope. Open Scope Qc_scope.

(** ** C89 Averages, channels and price levels are in the order of the prices *)
Theorem C89_price_lines_rise o raw raw' b b' ob ob' c k h h' l l' cl cl' name : wf_raw raw -> wf_raw raw' ->
  twice c o raw raw' b b' ob ob' -> dearer c k ob ob' h h' l l' cl cl' -> In name (price_lines c) -> no_lower (shown name ob k) (shown name ob' k).
Proof. exact (fun W W' => price_lines_rise o raw raw' b b' ob ob' k h h' l l' cl cl' W W' c name). Qed.
Print Assumptions C89_price_lines_rise.
Theorem C89_fibonacci_levels_rise o raw raw' b b' ob ob' cl cl' name x k : wf_raw raw -> wf_raw raw' -> twice cFIB o raw raw' b b' ob ob' ->
  days_given ob' = days_given ob -> under (days_given ob - 1) ob ob' "close" cl cl' -> In (name, x) levels -> (k < days_given ob)%nat ->
  no_lower (shown name ob k) (shown name ob' k).
Proof. exact (fibonacci_rise o raw raw' b b' ob ob' cl cl' name x k). Qed.
Print Assumptions C89_fibonacci_levels_rise.

(** ** C90 A higher close does not lower the day's value *)
Theorem C90_higher_close o raw raw' b b' ob ob' c k op h l cl cl' v name : wf_raw raw -> wf_raw raw' ->
  twice c o raw raw' b b' ob ob' -> close_raised c k ob ob' op h l cl cl' v ->
  sound_days (days_given ob) h l cl v -> sound_days (days_given ob) h l cl' v ->
  ordinary c (days_given ob) k op h l cl v -> ordinary c (days_given ob) k op h l cl' v ->
  In name (follows_close c) -> present_le (shown name ob k) (shown name ob' k).
Proof. exact (closes_follow o raw raw' b b' ob ob' c k op h l cl cl' v name). Qed.
Print Assumptions C90_higher_close.
(** the forecast oscillator, while the forecast is not negative *)
Theorem C90_forecast_oscillator o raw raw' b b' ob ob' p k cl cl' : wf_raw raw -> wf_raw raw' -> twice (cFOSC p) o raw raw' b b' ob ob' ->
  known (given "close" ob) k cl -> known (given "close" ob') k cl' -> (forall j, j <> k -> cl' j = cl j) -> cl k <= cl' k -> 0 < cl k ->
  0 <= forecast cl (nat_arg p) (k - 1) -> present_le (shown "fosc" ob k) (shown "fosc" ob' k).
Proof. exact (fun W W' T K K' S1 R P F => up_fosc o raw raw' b b' ob ob' k cl cl' W W' (conj S1 R) p T P F (conj K K')). Qed.
Print Assumptions C90_forecast_oscillator.
(** the MACD is the difference of two rounded averages: it can fall, but by one unit of the fourth decimal at most *)
Theorem C90_macd o raw raw' b b' ob ob' k cl cl' : wf_raw raw -> wf_raw raw' -> twice cMACD o raw raw' b b' ob ob' ->
  known (given "close" ob) k cl -> known (given "close" ob') k cl' -> (forall j, j <> k -> cl' j = cl j) -> cl k <= cl' k ->
  present_le (nsub (shown "macd" ob k) (D 1 10000)) (shown "macd" ob' k).
Proof. exact (fun W W' T K K' S1 R => up_macd o raw raw' b b' ob ob' k cl cl' W W' (conj S1 R) T (conj K K')). Qed.
Print Assumptions C90_macd.

(** ** two inputs side by side *)
Definition reads (c : ctor) (rs rs' : list (Z * Z * Z * Z * Z)) (n : nat) (ob ob' : obj) : bool :=
  let both name f f' := negb (existsb (String.eqb name) (required (asked c))) || reads_as (given name ob) n f && reads_as (given name ob') n f' in
  both "open" (op_of rs) (op_of rs') && both "high" (hi_of rs) (hi_of rs') && both "low" (lo_of rs) (lo_of rs') && both "close" (cl_of rs) (cl_of rs') && both "volume" (vo_of rs) (vo_of rs').
Definition obj_of c rs := the (made ora0 c (bars rs) true).
Definition is_made c rs := match made ora0 c (bars rs) true with Some _ => true | None => false end.
Lemma is_made_ok c rs : is_made c rs = true -> snd (construct ora0 c (RFrame (bars rs)) (VBool true)) = Ok (obj_of c rs).
Proof. unfold is_made, obj_of, made. destruct (snd (construct ora0 c (RFrame (bars rs)) (VBool true))); [reflexivity|discriminate]. Qed.
Lemma reads_ok c rs rs' n ob ob' : reads c rs rs' (S n) ob ob' = true -> forall name f f',
  In (name, f, f') [("open", op_of rs, op_of rs'); ("high", hi_of rs, hi_of rs'); ("low", lo_of rs, lo_of rs'); ("close", cl_of rs, cl_of rs'); ("volume", vo_of rs, vo_of rs')] ->
  In name (required (asked c)) -> known (given name ob) n f /\ known (given name ob') n f'.
Proof.
  unfold reads. rewrite !andb_true_iff. intros [[[[O H] L] C] V] name f f' I A.
  assert (G : forall f f', negb (existsb (String.eqb name) (required (asked c))) || reads_as (given name ob) (S n) f && reads_as (given name ob') (S n) f' = true -> known (given name ob) n f /\ known (given name ob') n f').
  { intros g g' R. rewrite (named _ _ A) in R. cbn [negb orb] in R. apply andb_true_iff in R as [R R']. split; apply reads_as_known; assumption. }
  repeat (destruct I as [I|I]; [injection I as <- <- <-; apply G; assumption|]). contradiction.
Qed.
Definition pair_of (c : ctor) (rs rs' : list (Z * Z * Z * Z * Z)) (ob ob' : obj) : Prop :=
  wf_raw (bars rs) /\ wf_raw (bars rs') /\ twice c ora0 (bars rs) (bars rs') true true ob ob'.
Lemma pair_ok c rs rs' : is_made c rs && is_made c rs' = true -> pair_of c rs rs' (obj_of c rs) (obj_of c rs').
Proof. rewrite andb_true_iff. intros [A B]. split; [apply bars_wf|]. split; [apply bars_wf|]. split; apply is_made_ok; assumption. Qed.
(** the second input is nowhere cheaper up to row k *)
Definition dearer_b (c : ctor) (k : nat) (rs rs' : list (Z * Z * Z * Z * Z)) : bool :=
  is_made c rs && is_made c rs' && reads c rs rs' (S k) (obj_of c rs) (obj_of c rs') &&
  forallb (fun j => qleb (hi_of rs j) (hi_of rs' j) && qleb (lo_of rs j) (lo_of rs' j) && qleb (cl_of rs j) (cl_of rs' j)) (seq 0 (S k)).
Lemma dearer_ok c k rs rs' : dearer_b c k rs rs' = true -> pair_of c rs rs' (obj_of c rs) (obj_of c rs') /\
  dearer c k (obj_of c rs) (obj_of c rs') (hi_of rs) (hi_of rs') (lo_of rs) (lo_of rs') (cl_of rs) (cl_of rs').
Proof.
  unfold dearer_b. rewrite !andb_true_iff. intros [[[A B] R] L]. split; [apply pair_ok; rewrite A, B; reflexivity|].
  assert (Q : forall j, (j <= k)%nat -> hi_of rs j <= hi_of rs' j /\ lo_of rs j <= lo_of rs' j /\ cl_of rs j <= cl_of rs' j).
  { intros j J. rewrite forallb_forall in L. specialize (L j). rewrite in_seq in L. specialize (L ltac:(lia)). rewrite !andb_true_iff, !qleb_iff in L. tauto. }
  pose proof (reads_ok _ _ _ _ _ _ R) as G. unfold dearer. cbv zeta. repeat split; try (eapply proj1, G; [cbn; auto 6|assumption]); try (eapply proj2, G; [cbn; auto 6|assumption]); apply Q; assumption.
Qed.
(** the close of row k set to x *)
Definition with_close (k : nat) (x : Z) (rs : list (Z * Z * Z * Z * Z)) : list (Z * Z * Z * Z * Z) :=
  match skipn k rs with (o, h, l, _, v) :: rest => (firstn k rs ++ (o, h, l, x, v) :: rest)%list | [] => rs end.
Lemma with_close_nth k x rs j : (k < List.length rs)%nat ->
  nth j (with_close k x rs) (0, 0, 0, 0, 0)%Z = if (j =? k)%nat then (let '(o, h, l, _, v) := nth k rs (0, 0, 0, 0, 0)%Z in (o, h, l, x, v)) else nth j rs (0, 0, 0, 0, 0)%Z.
Proof.
  unfold with_close. revert k j. induction rs as [|a rs IH]; intros k j K; [cbn in K; lia|]. destruct k as [|k]; cbn [skipn firstn nth].
  - destruct a as [[[[o h] l] c] v]. destruct j as [|j]; reflexivity.
  - specialize (IH k). destruct (skipn k rs) as [|[[[[o h] l] c] v] rest] eqn:E; destruct j as [|j]; cbn [Nat.eqb nth]; try reflexivity; apply IH; cbn in K; lia.
Qed.
Definition raised_b (c : ctor) (k : nat) (x y : Z) (rs : list (Z * Z * Z * Z * Z)) : bool :=
  let rs1 := with_close k x rs in let rs2 := with_close k y rs in let n := days_given (obj_of c rs1) in
  is_made c rs1 && is_made c rs2 && (days_given (obj_of c rs2) =? n)%nat && (k <? n)%nat && (k <? List.length rs)%nat && (x <=? y)%Z &&
  reads c rs1 rs2 (S (n - 1)) (obj_of c rs1) (obj_of c rs2) &&
  forallb (fun j => qltb 0 (lo_of rs j) && qleb (lo_of rs j) (cl_of rs1 j) && qleb (lo_of rs j) (cl_of rs2 j) && qleb (cl_of rs1 j) (hi_of rs j) && qleb (cl_of rs2 j) (hi_of rs j) && qleb 0 (vo_of rs j)) (seq 0 n).
Definition raising (c : ctor) (k : nat) (x y : Z) (rs : list (Z * Z * Z * Z * Z)) (ob ob' : obj) : Prop :=
  let rs1 := with_close k x rs in let rs2 := with_close k y rs in
  pair_of c rs1 rs2 ob ob' /\ close_raised c k ob ob' (op_of rs) (hi_of rs) (lo_of rs) (cl_of rs1) (cl_of rs2) (vo_of rs) /\
  sound_days (days_given ob) (hi_of rs) (lo_of rs) (cl_of rs1) (vo_of rs) /\ sound_days (days_given ob) (hi_of rs) (lo_of rs) (cl_of rs2) (vo_of rs).
Lemma raised_ok c k x y rs : raised_b c k x y rs = true -> raising c k x y rs (obj_of c (with_close k x rs)) (obj_of c (with_close k y rs)).
Proof.
  unfold raised_b. cbv zeta. rewrite !andb_true_iff. intros [[[[[[[A B] D] K] KL] XY] R] S1]. apply Nat.eqb_eq in D. apply Nat.ltb_lt in K. apply Nat.ltb_lt in KL. apply Z.leb_le in XY.
  assert (G1 : forall z j, op_of (with_close k z rs) j = op_of rs j) by (intros z j; unfold op_of; rewrite with_close_nth by exact KL; destruct (j =? k)%nat eqn:E; [apply Nat.eqb_eq in E; subst j; destruct (nth k rs _) as [[[[? ?] ?] ?] ?]; reflexivity|reflexivity]).
  assert (G2 : forall z j, hi_of (with_close k z rs) j = hi_of rs j) by (intros z j; unfold hi_of; rewrite with_close_nth by exact KL; destruct (j =? k)%nat eqn:E; [apply Nat.eqb_eq in E; subst j; destruct (nth k rs _) as [[[[? ?] ?] ?] ?]; reflexivity|reflexivity]).
  assert (G3 : forall z j, lo_of (with_close k z rs) j = lo_of rs j) by (intros z j; unfold lo_of; rewrite with_close_nth by exact KL; destruct (j =? k)%nat eqn:E; [apply Nat.eqb_eq in E; subst j; destruct (nth k rs _) as [[[[? ?] ?] ?] ?]; reflexivity|reflexivity]).
  assert (G5 : forall z j, vo_of (with_close k z rs) j = vo_of rs j) by (intros z j; unfold vo_of; rewrite with_close_nth by exact KL; destruct (j =? k)%nat eqn:E; [apply Nat.eqb_eq in E; subst j; destruct (nth k rs _) as [[[[? ?] ?] ?] ?]; reflexivity|reflexivity]).
  assert (G4 : forall z j, cl_of (with_close k z rs) j = if (j =? k)%nat then zq z else cl_of rs j) by (intros z j; unfold cl_of; rewrite with_close_nth by exact KL; destruct (j =? k)%nat eqn:E; [apply Nat.eqb_eq in E; subst j; destruct (nth k rs _) as [[[[? ?] ?] ?] ?]; reflexivity|reflexivity]).
  pose proof (reads_ok _ _ _ _ _ _ R) as G. rewrite forallb_forall in S1.
  assert (EQ : forall (name : string) (f f' g : nat -> Qc), known (given name (obj_of c (with_close k x rs))) (days_given (obj_of c (with_close k x rs)) - 1) f /\ known (given name (obj_of c (with_close k y rs))) (days_given (obj_of c (with_close k x rs)) - 1) f' ->
    (forall j, f j = g j) -> (forall j, f' j = g j) -> alike (days_given (obj_of c (with_close k x rs))) (obj_of c (with_close k x rs)) (obj_of c (with_close k y rs)) name g).
  { intros name f f' g [X Y] E1 E2. split; intros j J; [rewrite X, E1|rewrite Y, E2]; auto. }
  split; [apply pair_ok; rewrite A, B; reflexivity|]. split; [|split].
  - unfold close_raised. cbv zeta. split; [exact D|]. split; [exact K|].
    split; [intro I; eapply EQ; [apply (G "open" _ _ ltac:(cbn; auto 6) I)| |]; intro; apply G1|]. split; [intro I; eapply EQ; [apply (G "high" _ _ ltac:(cbn; auto 6) I)| |]; intro; apply G2|].
    split; [intro I; eapply EQ; [apply (G "low" _ _ ltac:(cbn; auto 6) I)| |]; intro; apply G3|]. split; [intro I; eapply EQ; [apply (G "volume" _ _ ltac:(cbn; auto 6) I)| |]; intro; apply G5|].
    split; [intro I; apply (G "close" _ _ ltac:(cbn; auto 6) I)|]. split; [intros j J; rewrite !G4; apply Nat.eqb_neq in J; rewrite J; reflexivity|]. rewrite !G4, Nat.eqb_refl. apply zq_le, XY.
  - intros j J. specialize (S1 j). rewrite in_seq in S1. specialize (S1 ltac:(lia)). rewrite !andb_true_iff, qltb_iff, !qleb_iff in S1. tauto.
  - intros j J. specialize (S1 j). rewrite in_seq in S1. specialize (S1 ltac:(lia)). rewrite !andb_true_iff, qltb_iff, !qleb_iff in S1. tauto.
Qed.

(** ** what does not follow the prices, with witnesses *)
Definition falls c name rs rs' k : bool := let x := shown name (obj_of c rs) k in let y := shown name (obj_of c rs') k in isfin x && isfin y && nltb y x.
(** high and close of row k raised by d *)
Definition lift (k : nat) (d : Z) (rs : list (Z * Z * Z * Z * Z)) :=
  map (fun p => let '(j, (o, h, l, c, v)) := p in if (j =? k)%nat then (o, h + d, l, c + d, v)%Z else (o, h, l, c, v)) (combine (seq 0 (List.length rs)) rs).
Definition not_in_order : list (ctor * string * nat) := [(cDEMA (VInt 2), "dema", 6%nat); (cTEMA (VInt 2), "tema", 6%nat); (cLRI (VInt 3), "lri", 7%nat); (cTSF (VInt 3), "tsf", 7%nat);
  (cMA (VInt 3) (VStr "time_series"), "ma-time_series", 7%nat); (cBB (VInt 3) (VFloat (F 2)), "upper_band", 9%nat); (cBB (VInt 3) (VFloat (F 2)), "lower_band", 7%nat)].
(** these columns are not in the order of the prices: one dearer day, and the value is lower *)
Theorem C89_averages_of_averages_refuted : forall c name j, In (c, name, j) not_in_order -> exists rs rs' ob ob' k, pair_of c rs rs' ob ob' /\
  dearer c k ob ob' (hi_of rs) (hi_of rs') (lo_of rs) (lo_of rs') (cl_of rs) (cl_of rs') /\ nltb (shown name ob' k) (shown name ob k) = true.
Proof.
  assert (Q : forallb (fun q => let '(c, name, j) := q in dearer_b c 9 ten_days (lift j 2 ten_days) && falls c name ten_days (lift j 2 ten_days) 9) not_in_order = true) by (vm_compute; reflexivity).
  intros c name j I. rewrite forallb_forall in Q. specialize (Q _ I). cbv beta iota in Q. unfold falls in Q. cbv zeta in Q. rewrite !andb_true_iff in Q. destruct Q as [P [_ X]]. destruct (dearer_ok _ _ _ _ P) as [Y Z].
  exists ten_days, (lift j 2 ten_days), (obj_of c ten_days), (obj_of c (lift j 2 ten_days)), 9%nat. auto.
Qed.
Print Assumptions C89_averages_of_averages_refuted.
(** a higher close of the day, and the value of the day is lower *)
Definition against_close : list (ctor * string * nat * Z) := [(cRI (VInt 2) (VInt 2), "ri", 4%nat, 11%Z); (cVHF (VInt 3), "vhf", 6%nat, 10%Z); (cSD (VInt 3), "sd", 6%nat, 10%Z);
  (cBB (VInt 3) (VFloat (F 2)), "upper_band", 6%nat, 10%Z); (cBB (VInt 3) (VFloat (F 2)), "lower_band", 4%nat, 10%Z)].
Theorem C90_ranges_refuted : forall c name k x, In (c, name, k, x) against_close -> exists y rs ob ob', raising c k x y rs ob ob' /\ nltb (shown name ob' k) (shown name ob k) = true.
Proof.
  assert (Q : forallb (fun q => let '(c, name, k, x) := q in raised_b c k x (x + 1) ten_days && falls c name (with_close k x ten_days) (with_close k (x + 1) ten_days) k) against_close = true) by (vm_compute; reflexivity).
  intros c name k x I. rewrite forallb_forall in Q. specialize (Q _ I). cbv beta iota in Q. unfold falls in Q. cbv zeta in Q. rewrite !andb_true_iff in Q. destruct Q as [P [_ X]].
  exists (x + 1)%Z, ten_days, (obj_of c (with_close k x ten_days)), (obj_of c (with_close k (x + 1) ten_days)). split; [apply raised_ok, P|exact X].
Qed.
Print Assumptions C90_ranges_refuted.
(** closes in units of the fourth decimal *)
Definition ticks (cs : list Z) : rawframe := mkRaw true [LStr "close"] [true] (map (fun p => (Z.of_nat (fst p), [D (snd p) 10000])) (combine (seq 1 (List.length cs)) cs)).
Lemma ticks_wf cs : wf_raw (ticks cs).
Proof. split; [reflexivity|]. intros r H. cbn in H. apply in_map_iff in H as ([k z] & <- & _). reflexivity. Qed.
Definition flat (last : Z) : list Z := (repeat 100000%Z 26 ++ [last])%list.
Definition tick_of (cs : list Z) (j : nat) : Qc := Q2Qc (nth j cs 0%Z # 10000).
(** the MACD: 10.0000 for twenty-six days, then 10.0006 gives 0.0001 and 10.0007 gives 0.0000 *)
Theorem C90_macd_refuted : exists cs cs' ob ob' k, twice cMACD ora0 (ticks cs) (ticks cs') true true ob ob' /\
  known (given "close" ob) k (tick_of cs) /\ known (given "close" ob') k (tick_of cs') /\ (forall j, j <> k -> tick_of cs' j = tick_of cs j) /\ tick_of cs k <= tick_of cs' k /\
  nltb (shown "macd" ob' k) (shown "macd" ob k) = true.
Proof.
  exists (flat 100006), (flat 100007), (the (made ora0 cMACD (ticks (flat 100006)) true)), (the (made ora0 cMACD (ticks (flat 100007)) true)), 26%nat.
  assert (M : forall cs, match made ora0 cMACD (ticks cs) true with Some _ => true | None => false end = true -> snd (construct ora0 cMACD (RFrame (ticks cs)) (VBool true)) = Ok (the (made ora0 cMACD (ticks cs) true))) by
    (intro cs; unfold made; destruct (snd (construct ora0 cMACD (RFrame (ticks cs)) (VBool true))); [reflexivity|discriminate]).
  split; [split; apply M; vm_compute; reflexivity|]. split; [apply reads_as_known; vm_compute; reflexivity|]. split; [apply reads_as_known; vm_compute; reflexivity|].
  split; [|split; [apply qleb_iff; vm_compute; reflexivity|vm_compute; reflexivity]].
  intros j J. unfold tick_of. do 26 (destruct j as [|j]; [reflexivity|]). destruct j as [|j]; [lia|]. cbn. destruct j; reflexivity.
Qed.
Print Assumptions C90_macd_refuted.

(** ** cases *)
Definition rises c name rs rs' k : bool := let x := shown name (obj_of c rs) k in let y := shown name (obj_of c rs') k in isfin x && isfin y && nleb x y.
Definition order_cases := [cMA (VInt 3) (VStr "simple"); cMA (VInt 3) (VStr "exponential"); cMA (VInt 3) (VStr "triangular"); cWS (VInt 2); cMP (VInt 2); cTP (VInt 2); cWC; cPCH (VInt 3); cBB (VInt 3) (VFloat (F 2)); cENV (VInt 3) (VFloat (D 1 10))].
Example C89_case : forallb (fun c => dearer_b c 9 ten_days (lift 8 3 ten_days) && negb (match price_lines c with [] => true | _ => false end) &&
  forallb (fun name => rises c name ten_days (lift 8 3 ten_days) 9) (price_lines c)) order_cases = true /\
  existsb (fun c => existsb (fun name => nltb (shown name (obj_of c ten_days) 9) (shown name (obj_of c (lift 8 3 ten_days)) 9)) (price_lines c)) order_cases = true /\
  (dearer_b cICH 29 month (lift 28 9 month) && rises cICH "tenkan_sen" month (lift 28 9 month) 29 && nltb (shown "kijun_sen" (obj_of cICH month) 29) (shown "kijun_sen" (obj_of cICH (lift 28 9 month)) 29)) = true.
Proof. vm_compute. auto. Qed.
Example C89_hypotheses : (let c := cMA (VInt 3) (VStr "simple") in pair_of c ten_days (lift 8 3 ten_days) (obj_of c ten_days) (obj_of c (lift 8 3 ten_days)) /\
  dearer c 9 (obj_of c ten_days) (obj_of c (lift 8 3 ten_days)) (hi_of ten_days) (hi_of (lift 8 3 ten_days)) (lo_of ten_days) (lo_of (lift 8 3 ten_days)) (cl_of ten_days) (cl_of (lift 8 3 ten_days))) /\
  (pair_of cFIB ten_days (lift 8 3 ten_days) (obj_of cFIB ten_days) (obj_of cFIB (lift 8 3 ten_days)) /\
   under (days_given (obj_of cFIB ten_days) - 1) (obj_of cFIB ten_days) (obj_of cFIB (lift 8 3 ten_days)) "close" (cl_of ten_days) (cl_of (lift 8 3 ten_days)) /\
   nltb (shown "rl_38.2" (obj_of cFIB ten_days) 2) (shown "rl_38.2" (obj_of cFIB (lift 8 3 ten_days)) 2) = true).
Proof.
  split; [apply dearer_ok; vm_compute; reflexivity|]. assert (Q : dearer_b cFIB 9 ten_days (lift 8 3 ten_days) = true) by (vm_compute; reflexivity).
  destruct (dearer_ok _ _ _ _ Q) as [P (_ & _ & C)]. split; [exact P|]. assert (N : (days_given (obj_of cFIB ten_days) - 1)%nat = 9%nat) by (vm_compute; reflexivity). rewrite N. split; [apply C; cbn; auto|vm_compute; reflexivity].
Qed.
Definition close_cases := [cADL; cCMF (VInt 3); cCMO (VInt 3); cCCI (VInt 3); cIMI (VInt 3); cLRS (VInt 3); cLRI (VInt 3); cTSF (VInt 3); cDEMA (VInt 2); cTEMA (VInt 2); cMOM (VInt 3); cNVI; cOBV; cPVI; cPVT; cPRF (VStr "LONG") (VInt 2);
  cPRC (VInt 3); cPOSC (VInt 3) (VInt 2); cPROJ (VInt 3); cQS (VInt 2); cRSI (VInt 3); cRMI (VInt 3) (VInt 1); cSO (VInt 3) (VInt 3) (VInt 2) (VStr "simple"); cSMI (VInt 2) (VInt 2) (VInt 2); cSWI; cWAD; cWR (VInt 3); cMA (VInt 3) (VStr "time_series")].
(** the close of the eighth day 11 or 15: every value is higher, or the same, and some are higher *)
Example C90_case : forallb (fun c => raised_b c 7 11 15 ten_days && negb (match follows_close c with [] => true | _ => false end) &&
  forallb (fun name => rises c name (with_close 7 11 ten_days) (with_close 7 15 ten_days) 7) (follows_close c)) close_cases = true /\ List.length close_cases = 28%nat /\
  forallb (fun c => existsb (fun name => nltb (shown name (obj_of c (with_close 7 11 ten_days)) 7) (shown name (obj_of c (with_close 7 15 ten_days)) 7)) (follows_close c) || match c with cNVI => true | _ => false end) close_cases = true /\
  (raised_b cUO 28 13 16 month && nltb (shown "uosc" (obj_of cUO (with_close 28 13 month)) 28) (shown "uosc" (obj_of cUO (with_close 28 16 month)) 28)) = true /\
  (raised_b cCO 28 13 16 month && nltb (shown "co" (obj_of cCO (with_close 28 13 month)) 28) (shown "co" (obj_of cCO (with_close 28 16 month)) 28)) = true /\
  (raised_b (cFOSC (VInt 3)) 7 11 15 ten_days && nltb (shown "fosc" (obj_of (cFOSC (VInt 3)) (with_close 7 11 ten_days)) 7) (shown "fosc" (obj_of (cFOSC (VInt 3)) (with_close 7 15 ten_days)) 7) && qltb 0 (forecast (cl_of (with_close 7 11 ten_days)) 3 6)) = true /\
  (raised_b cMACD 28 13 16 month && nltb (shown "macd" (obj_of cMACD (with_close 28 13 month)) 28) (shown "macd" (obj_of cMACD (with_close 28 16 month)) 28)) = true.
Proof. vm_compute. auto 10. Qed.
Example C90_hypotheses : forall c, In c [cCMF (VInt 3); cRSI (VInt 3); cSWI; cSO (VInt 3) (VInt 3) (VInt 2) (VStr "simple")] ->
  let rs1 := with_close 7 11 ten_days in let rs2 := with_close 7 15 ten_days in raising c 7 11 15 ten_days (obj_of c rs1) (obj_of c rs2) /\
  ordinary c (days_given (obj_of c rs1)) 7 (op_of ten_days) (hi_of ten_days) (lo_of ten_days) (cl_of rs1) (vo_of ten_days) /\
  ordinary c (days_given (obj_of c rs1)) 7 (op_of ten_days) (hi_of ten_days) (lo_of ten_days) (cl_of rs2) (vo_of ten_days).
Proof.
  intros c I. cbv zeta. assert (N : days_given (obj_of c (with_close 7 11 ten_days)) = 10%nat) by (repeat (destruct I as [<-|I]; [vm_compute; reflexivity|]); contradiction). rewrite N.
  repeat (destruct I as [<-|I]; [split; [apply raised_ok; vm_compute; reflexivity|]; cbn [ordinary]|]); [..|contradiction].
  - split; ten_times.
  - split; exact Logic.I.
  - split; apply nonzero; vm_compute; reflexivity.
  - change (nat_arg (VInt 3)) with 3%nat. split; intros j J; do 8 (destruct j as [|j]; [first [lia|apply nonzero; vm_compute; reflexivity]|]); lia.
Qed.
