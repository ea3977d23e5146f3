(** * PropsFade: how fast recursive averages forget old prices (C101).

    Two inputs, of any lengths, whose closes of the last m days up to row k of the first and row k' of the second are the same
    ([meets]); all closes up to there lie between lo and lo + w ([inside]).  [remains c m] (SwaySpec.v) lists the columns of
    [c] with the row they start in, the share of w by which they can still differ and the units of the fourth decimal that
    rounding may add. *)
From Coq Require Import ZArith QArith Qcanon Bool List String PeanoNat Lia.
From Verif Require Import Num NumFacts Pandas Sim Frame FrameSpec Ind Signal Api IndSpec ApiSpec RangeSpec PropsApi PropsRange ValueSpec ValueApi PropsValue PropsCumul FormulaSpec FormulaApi PropsFormula SignalSpec SignalApi MirrorSpec PropsMirror OrderSpec OrderFacts OrderApi PropsOrder SwaySpec SwayFacts FadeApi.
Import ListNotations.
Open Scope list_scope. Open Scope string_scope. Open Scope Qc_scope.

(** ** C101 Old prices fade from exponential averages, Wilder's average and the MACD *)
Theorem C101_past_fades o raw raw' b b' ob ob' c k k' m lo w cl cl' name a q u : wf_raw raw -> wf_raw raw' -> twice c o raw raw' b b' ob ob' ->
  known (given "close" ob) k cl -> known (given "close" ob') k' cl' -> meets m k k' cl cl' -> inside lo w k cl -> inside lo w k' cl' ->
  In (name, a, q, u) (remains c m) -> (a + m <= k)%nat -> (a + m <= k')%nat -> near (q * w + units4 u) (shown name ob k) (shown name ob' k').
Proof.
  intros W W' T K K' ME I I' N G G'. exact (past_fades o raw raw' b b' ob ob' k k' m lo w cl cl' W W' K K' ME I I' ltac:(lia) ltac:(lia) c name a q u T N G G').
Qed.
Print Assumptions C101_past_fades.
(** in words of days: the p-day exponential average loses half of the difference every (p + 1) / 2 days *)
Theorem C101_average_halves o raw raw' b b' ob ob' p k k' n q lo w cl cl' : wf_raw raw -> wf_raw raw' -> twice (cMA p (VStr "exponential")) o raw raw' b b' ob ob' ->
  known (given "close" ob) k cl -> known (given "close" ob') k' cl' -> meets (n * q) k k' cl cl' -> inside lo w k cl -> inside lo w k' cl' ->
  (S (nat_arg p) <= 2 * n)%nat -> (nat_arg p - 1 + n * q <= k)%nat -> (nat_arg p - 1 + n * q <= k')%nat ->
  near (w * Q2Qc (1 # 2) ^ q + units4 1) (shown "ma-exponential" ob k) (shown "ma-exponential" ob' k').
Proof.
  intros W W' T K K' ME I I' N G G'. exact (average_halves o raw raw' b b' ob ob' k k' (n * q) lo w cl cl' W W' K K' ME I I' ltac:(lia) ltac:(lia) p n q T N eq_refl G G').
Qed.
Print Assumptions C101_average_halves.
(** the shares do become small *)
Theorem C101_shares_vanish p n q : (1 <= p)%nat -> (S p <= 2 * n)%nat -> (1 - span p) ^ (n * q) <= Q2Qc (1 # 2) ^ q.
Proof. exact (halves p n q). Qed.
Print Assumptions C101_shares_vanish.

(** ** a case: ten days, and a history of eight days whose last six are the same *)
Definition other_days := ([(14, 16, 12, 16, 40); (16, 17, 13, 8, 10)]%Z ++ skipn 4 ten_days)%list.
Definition joins (c : ctor) (m k k' : nat) (lo w : Z) (rs rs' : list (Z * Z * Z * Z * Z)) : bool :=
  is_made c rs && is_made c rs' && reads_as (given "close" (obj_of c rs)) (S k) (cl_of rs) && reads_as (given "close" (obj_of c rs')) (S k') (cl_of rs') &&
  forallb (fun j => qeqb (cl_of rs (k - j)) (cl_of rs' (k' - j))) (seq 0 m) &&
  forallb (fun j => qleb (zq lo) (cl_of rs j) && qleb (cl_of rs j) (zq lo + zq w)) (seq 0 (S k)) && forallb (fun j => qleb (zq lo) (cl_of rs' j) && qleb (cl_of rs' j) (zq lo + zq w)) (seq 0 (S k')).
Lemma joins_ok c m k k' lo w rs rs' : joins c m k k' lo w rs rs' = true -> pair_of c rs rs' (obj_of c rs) (obj_of c rs') /\
  known (given "close" (obj_of c rs)) k (cl_of rs) /\ known (given "close" (obj_of c rs')) k' (cl_of rs') /\ meets m k k' (cl_of rs) (cl_of rs') /\
  inside (zq lo) (zq w) k (cl_of rs) /\ inside (zq lo) (zq w) k' (cl_of rs').
Proof.
  unfold joins. rewrite !andb_true_iff, !forallb_forall. intros [[[[[[A B] R] R'] M] I] I']. split; [apply pair_ok; rewrite A, B; reflexivity|].
  split; [apply reads_as_known; exact R|]. split; [apply reads_as_known; exact R'|].
  split; [intros j J; apply qeqb_iff, M, in_seq; lia|]. split; intros j J; [specialize (I j)|specialize (I' j)].
  - rewrite in_seq, andb_true_iff, !qleb_iff in I. apply I. lia.
  - rewrite in_seq, andb_true_iff, !qleb_iff in I'. apply I'. lia.
Qed.
Definition fade_cases := [cMA (VInt 2) (VStr "exponential"); cWS (VInt 2); cDEMA (VInt 1); cDEMA (VInt 2); cTEMA (VInt 1)].
Definition differ (name : string) c k k' := let x := shown name (obj_of c ten_days) k in let y := shown name (obj_of c other_days) k' in isfin x && isfin y && negb (neqb x y).
(** six common days after row 1: the averages of two days still differ, by less than 10 / 3 ^ 5 and 10 / 2 ^ 5 *)
Example C101_case : forallb (fun c => joins c 5 9 7 8 8 ten_days other_days) fade_cases = true /\
  forallb (fun c => forallb (fun x => let '(name, a, q, u) := x in (a + 5 <=? 7)%nat) (remains c 5) && negb (match remains c 5 with [] => true | _ => false end)) fade_cases = true /\
  differ "ma-exponential" (cMA (VInt 2) (VStr "exponential")) 9 7 = true /\ differ "ws" (cWS (VInt 2)) 9 7 = true /\
  map (fun x => let '(name, a, q, u) := x in (name, a, this q)) (remains (cMA (VInt 2) (VStr "exponential")) 5) = [("ma-exponential", 1%nat, 1 # 243)]%Q.
Proof. vm_compute. auto 10. Qed.
Example C101_hypotheses : let c := cWS (VInt 2) in pair_of c ten_days other_days (obj_of c ten_days) (obj_of c other_days) /\
  known (given "close" (obj_of c ten_days)) 9 (cl_of ten_days) /\ known (given "close" (obj_of c other_days)) 7 (cl_of other_days) /\ meets 5 9 7 (cl_of ten_days) (cl_of other_days) /\
  inside (zq 8) (zq 8) 9 (cl_of ten_days) /\ inside (zq 8) (zq 8) 7 (cl_of other_days).
Proof. apply joins_ok. vm_compute. reflexivity. Qed.
(** the MACD: the close of row 20 five points higher, the last four days the same *)
Example C101_macd_case : joins cMACD 4 29 29 0 100 month (lift 20 5 month) = true /\ remains cMACD 4 <> [] /\
  (let x := shown "macd" (obj_of cMACD month) 29 in let y := shown "macd" (obj_of cMACD (lift 20 5 month)) 29 in isfin x && isfin y && negb (neqb x y)) = true.
Proof. vm_compute. repeat split; discriminate. Qed.
