(** * PropsSway: prices that are slightly off (C100).

    The prices of two inputs differ by e at most ([misread], [off_by] in SwaySpec.v).  [sway c] lists published columns with
    the largest factor by which the error e can show in them, and the units of the fourth decimal that rounding may add;
    [near d x y]: both missing, or both numbers at most d apart. *)
From Coq Require Import ZArith QArith Qcanon Bool List String PeanoNat Lia.
From Verif Require Import Num NumFacts Pandas Sim Frame FrameSpec Ind Signal Api IndSpec ApiSpec RangeSpec PropsApi PropsRange ValueSpec ValueApi PropsValue PropsCumul FormulaSpec FormulaApi PropsFormula SignalSpec SignalApi MirrorSpec PropsMirror OrderSpec OrderFacts OrderApi PropsOrder SwaySpec SwayFacts SwayApi.
Import ListNotations.
Open Scope list_scope. Open Scope string_scope. Open Scope Qc_scope.

(** ** C100 Small errors in the prices stay small in averages, channels and their differences *)
Theorem C100_small_errors o raw raw' b b' ob ob' c e k op op' h h' l l' cl cl' name a u : wf_raw raw -> wf_raw raw' ->
  twice c o raw raw' b b' ob ob' -> misread c e k ob ob' op op' h h' l l' cl cl' -> In (name, a, u) (sway c) ->
  near (a * e + units4 u) (shown name ob k) (shown name ob' k).
Proof. exact (fun W W' => lines_sway o raw raw' b b' ob ob' k e op op' h h' l l' cl cl' W W' c name a u). Qed.
Print Assumptions C100_small_errors.
Theorem C100_average_true_range o raw raw' b b' ob ob' e k h h' l l' cl cl' : wf_raw raw -> wf_raw raw' -> twice cATR o raw raw' b b' ob ob' ->
  (13 <= k)%nat -> off_by e k ob ob' "high" h h' -> off_by e k ob ob' "low" l l' -> off_by e k ob ob' "close" cl cl' ->
  near (zq 2 * e + units4 1) (shown "atr" ob k) (shown "atr" ob' k).
Proof. exact (fun W W' => off_atr o raw raw' b b' ob ob' k e h h' l l' cl cl' W W'). Qed.
Print Assumptions C100_average_true_range.
Theorem C100_fibonacci_levels o raw raw' b b' ob ob' e cl cl' name x k : wf_raw raw -> wf_raw raw' -> twice cFIB o raw raw' b b' ob ob' ->
  days_given ob' = days_given ob -> off_by e (days_given ob - 1) ob ob' "close" cl cl' -> In (name, x) levels -> (k < days_given ob)%nat ->
  near (e + units4 1) (shown name ob k) (shown name ob' k).
Proof. exact (fibonacci_sway o raw raw' b b' ob ob' e cl cl' name x k). Qed.
Print Assumptions C100_fibonacci_levels.

(** ** two inputs whose prices are one apart at most *)
Definition one_off_b (c : ctor) (k : nat) (rs rs' : list (Z * Z * Z * Z * Z)) : bool :=
  is_made c rs && is_made c rs' && reads c rs rs' (S k) (obj_of c rs) (obj_of c rs') &&
  forallb (fun j => forallb (fun f => qleb (f rs j) (f rs' j + 1) && qleb (f rs' j) (f rs j + 1)) [op_of; hi_of; lo_of; cl_of]) (seq 0 (S k)).
Lemma one_off_ok c k rs rs' : one_off_b c k rs rs' = true -> pair_of c rs rs' (obj_of c rs) (obj_of c rs') /\
  misread c 1 k (obj_of c rs) (obj_of c rs') (op_of rs) (op_of rs') (hi_of rs) (hi_of rs') (lo_of rs) (lo_of rs') (cl_of rs) (cl_of rs').
Proof.
  unfold one_off_b. rewrite !andb_true_iff. intros [[[A B] R] L]. split; [apply pair_ok; rewrite A, B; reflexivity|].
  assert (Q : forall f, In f [op_of; hi_of; lo_of; cl_of] -> forall j, (j <= k)%nat -> f rs j <= f rs' j + 1 /\ f rs' j <= f rs j + 1).
  { intros f I j J. rewrite forallb_forall in L. specialize (L j). rewrite in_seq in L. specialize (L ltac:(lia)). rewrite forallb_forall in L. specialize (L f I). rewrite !andb_true_iff, !qleb_iff in L. exact L. }
  pose proof (reads_ok _ _ _ _ _ _ R) as G.
  split; [|split; [|split]]; intro I; (split; [eapply proj1, G; [cbn; auto 6|exact I]|]; split; [eapply proj2, G; [cbn; auto 6|exact I]|apply Q; cbn; auto 6]).
Qed.

(** it is false that the other columns stay near: shares of gains and losses, places within a range and the parabolic SAR
    jump when prices around a million are off by one, or a low by one point *)
Definition calm := [(1000000, 1000001, 1000000, 1000000, 5); (1000000, 1000001, 1000000, 1000001, 5)]%Z.
Definition calm' := [(1000001, 1000001, 1000000, 1000001, 5); (1000001, 1000001, 1000000, 1000000, 5)]%Z.
Definition climb z := [(100, 101, 99, 100, 5); (110, 111, 109, 110, 5); (120, 121, 119, 120, 5); (130, 131, 129, 130, 5); (140, 141, 139, 140, 5); (150, 151, 149, 150, 5); (140, 141, z, 140, 5)]%Z.
Definition jumps : list (ctor * string * list (Z * Z * Z * Z * Z) * list (Z * Z * Z * Z * Z) * nat * Z) :=
  [(cRSI (VInt 1), "rsi", calm, calm', 1%nat, 100%Z); (cCMO (VInt 1), "cmo", calm, calm', 1%nat, 200%Z); (cWR (VInt 1), "wr", calm, calm', 1%nat, 100%Z);
   (cSO (VInt 1) (VInt 1) (VInt 1) (VStr "simple"), "%K", calm, calm', 1%nat, 100%Z); (cPSAR, "sar", climb 111, climb 112, 6%nat, 39%Z)].
Theorem C100_other_columns_refuted : forall c name rs rs' k j, In (c, name, rs, rs', k, j) jumps -> exists ob ob' a a',
  pair_of c rs rs' ob ob' /\ misread c 1 k ob ob' (op_of rs) (op_of rs') (hi_of rs) (hi_of rs') (lo_of rs) (lo_of rs') (cl_of rs) (cl_of rs') /\
  shown name ob k = Fin a /\ shown name ob' k = Fin a' /\ zq j <= abs (a - a').
Proof.
  assert (Q : forallb (fun x => let '(c, name, rs, rs', k, j) := x in one_off_b c k rs rs' && match shown name (obj_of c rs) k, shown name (obj_of c rs') k with Fin a, Fin a' => qleb (zq j) (abs (a - a')) | _, _ => false end) jumps = true) by (vm_compute; reflexivity).
  intros c name rs rs' k j I. rewrite forallb_forall in Q. specialize (Q _ I). cbv beta iota in Q. apply andb_true_iff in Q as [A B]. destruct (one_off_ok _ _ _ _ A) as [P M].
  exists (obj_of c rs), (obj_of c rs'). destruct (shown name (obj_of c rs) k) as [| | |a]; try discriminate. destruct (shown name (obj_of c rs') k) as [| | |a']; try discriminate.
  exists a, a'. apply qleb_iff in B. auto.
Qed.
Print Assumptions C100_other_columns_refuted.

(** ** cases: all columns of [sway] on two markets one apart, some of them apart *)
Definition wobble (rs : list (Z * Z * Z * Z * Z)) := map (fun p => let '(j, (o, h, l, c, v)) := p in let d := match Nat.modulo j 3 with O => 1%Z | 1%nat => 0%Z | _ => (-1)%Z end in (o + d, h + d, l + d, c - d, v)%Z) (combine (seq 0 (List.length rs)) rs).
Definition sway_cases := [cMA (VInt 3) (VStr "simple"); cMA (VInt 3) (VStr "exponential"); cMA (VInt 3) (VStr "triangular"); cWS (VInt 2); cMP (VInt 2); cTP (VInt 2); cWC; cPCH (VInt 3); cBB (VInt 3) (VFloat (F 2)); cENV (VInt 3) (VFloat (D 1 10)); cDEMA (VInt 2); cTEMA (VInt 2); cQS (VInt 2)].
Definition apart_b (d : Qc) (x y : num) : bool := match x, y with Fin a, Fin b => qltb d (abs (a - b)) | _, _ => false end.
Example C100_case : forallb (fun c => one_off_b c 9 ten_days (wobble ten_days) && negb (match sway c with [] => true | _ => false end) &&
    forallb (fun x => let '(name, a, u) := x in isfin (shown name (obj_of c ten_days) 9) && isfin (shown name (obj_of c (wobble ten_days)) 9)) (sway c)) sway_cases = true /\
  existsb (fun c => existsb (fun x => let '(name, a, u) := x in apart_b (Q2Qc (6 # 10)) (shown name (obj_of c ten_days) 9) (shown name (obj_of c (wobble ten_days)) 9)) (sway c)) sway_cases = true /\
  one_off_b cMACD 29 month (wobble month) = true /\ one_off_b cICH 29 month (wobble month) = true /\ one_off_b cFIB 9 ten_days (wobble ten_days) = true /\ one_off_b cATR 29 month (wobble month) = true /\
  isfin (shown "macd" (obj_of cMACD month) 29) = true /\ isfin (shown "atr" (obj_of cATR month) 29) = true.
Proof. vm_compute. auto 10. Qed.
Example C100_hypotheses : let c := cDEMA (VInt 2) in pair_of c ten_days (wobble ten_days) (obj_of c ten_days) (obj_of c (wobble ten_days)) /\
  misread c 1 9 (obj_of c ten_days) (obj_of c (wobble ten_days)) (op_of ten_days) (op_of (wobble ten_days)) (hi_of ten_days) (hi_of (wobble ten_days)) (lo_of ten_days) (lo_of (wobble ten_days)) (cl_of ten_days) (cl_of (wobble ten_days)).
Proof. apply one_off_ok. vm_compute. reflexivity. Qed.
